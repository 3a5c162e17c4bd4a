(** Model of src/aspsim/room/region.py over the real numbers; floating point rounding is not modelled.
    A point is the list of its coordinates.  Centres, sides and spacings are lists of the length the constructors ask for.
    Plotting is left out.  Random numbers: [next] gives the next number of the generator, uniform in [0,1), and the generator afterwards;
    every region has a generator of its own.  Regions combined with each other have the same dimension. *)
Require Import Verif.PyBase.
Require Import Verif.SineModel Verif.TrajModel.
Set Implicit Arguments.
Local Open Scope list_scope.
Local Open Scope R_scope.

(** element [i] of an array that has one *)
Definition at_ (l : list R) (i : nat) : R := nth i l 0.
(** np.floor and np.ceil *)
Definition rfloor (x : R) : Z := Int_part x.
Definition rceil (x : R) : Z := (- Int_part (- x))%Z.
(** np.linalg.norm of a row, np.sqrt(np.sum(np.square(row))) *)
Definition norm (p : list R) : R := sqrt (rsum (map (fun x => x ^ 2) p)).
(** np.isclose with its default tolerances *)
Definition isclose (a b : R) : bool := rle (Rabs (a - b)) (/ 10 ^ 8 + / 10 ^ 5 * Rabs b).
(** np.meshgrid (indexing "xy"), the points in the order of flatten *)
Definition mesh2 (ax ay : list R) : list (list R) := flat_map (fun y => map (fun x => [x; y]) ax) ay.
Definition mesh3 (ax ay az : list R) : list (list R) := flat_map (fun y => flat_map (fun x => map (fun z => [x; y; z]) az) ax) ay.
(** np.meshgrid with indexing "ij" *)
Definition mesh3_ij (ax ay az : list R) : list (list R) := flat_map (fun x => flat_map (fun y => map (fun z => [x; y; z]) az) ay) ax.
(** np.arange(num) * dist *)
Definition axis (num : Z) (dist : R) : list R := map (fun k => IZR k * dist) (zrange 0 num).
Definition vadd : list R -> list R -> list R := vzip Rplus.
Definition vsub : list R -> list R -> list R := vzip Rminus.
(** point_dist: one number for all axes, or one for each *)
Inductive spacing := SameSpacing (r : R) | EachSpacing (l : list R).

(** What is_in_region returns: an array with one entry per coordinate, or the scalar False *)
Inductive answer := ScalarFalse | PerPoint (l : list bool).
(** np.any *)
Definition np_any (a : answer) : bool := match a with ScalarFalse => false | PerPoint l => existsb (fun b => b) l end.

(* ------------------------------------------------------------------ Cuboid *)
(** region.py 78-79, 181-182: the limits *)
Definition low_lim (sides center : list R) : list R := vzip (fun c s => c - s / 2) center sides.
Definition high_lim (sides center : list R) : list R := vzip (fun c s => c + s / 2) center sides.
(** region.py 83-89 (Cuboid.is_in_region); padding is one row *)
Definition cuboid_is_in (sides center padding : list R) (coordinates : list (list R)) : list bool :=
  map (fun p =>
    let is_in_coord_wise i := rle (at_ (vsub (low_lim sides center) padding) i) (at_ p i) && rle (at_ p i) (at_ (vadd (high_lim sides center) padding) i) in
    is_in_coord_wise 0%nat && is_in_coord_wise 1%nat && is_in_coord_wise 2%nat) coordinates.
(** region.py 102-110, 224-226: one axis of a cuboid or rectangle grid *)
Definition centred_axis (num : Z) (dist side : R) : list R :=
  let single := axis num dist in
  let remainder := side - last single 0 in
  map (fun x => x + remainder / 2) single.
(** region.py 91-116 (Cuboid.equally_spaced_points); [own] is self.point_spacing *)
Definition cuboid_points (sides center : list R) (own : spacing) (point_dist : option spacing) : res (list (list R)) :=
  let dist := match (match point_dist with None => own | Some d => d end) with SameSpacing r => [r; r; r] | EachSpacing l => l end in
  let num i := rfloor (at_ sides i / at_ dist i) in
  _ <- passert ((1 <=? num 0%nat)%Z && (1 <=? num 1%nat)%Z && (1 <=? num 2%nat)%Z) ;;
  let ax i := centred_axis (num i) (at_ dist i) (at_ sides i) in
  Ok (map (fun p => vadd p (low_lim sides center)) (mesh3 (ax 0%nat) (ax 1%nat) (ax 2%nat))).

(* ------------------------------------------------------------------ Rectangle *)
(** region.py 174-175, 264-265: the assertions of the constructors of Rectangle and Disc *)
Definition plane_ctor (center : list R) (spatial_dim : Z) : res unit :=
  _ <- passert ((spatial_dim =? 2)%Z || (spatial_dim =? 3)%Z) ;; passert (zlen center =? spatial_dim)%Z.
(** region.py 203-205, 273-275: the test of the third coordinate; [true] if the scalar False is returned *)
Definition off_plane (center : list R) (spatial_dim : Z) (coordinates : list (list R)) : bool :=
  if (spatial_dim =? 3)%Z then negb (forallb (fun p => isclose (at_ p 2) (at_ center 2)) coordinates) else false.
(** region.py 185-210 (Rectangle.is_in_region) *)
Definition rectangle_is_in (sides center padding : list R) (spatial_dim : Z) (coordinates : list (list R)) : answer :=
  if off_plane center spatial_dim coordinates then ScalarFalse
  else PerPoint (map (fun p =>
    let is_in_coord_wise i := rle (at_ (vsub (low_lim sides center) padding) i) (at_ p i) && rle (at_ p i) (at_ (vadd (high_lim sides center) padding) i) in
    is_in_coord_wise 0%nat && is_in_coord_wise 1%nat) coordinates).
(** region.py 212-232 (Rectangle.equally_spaced_points) *)
Definition rectangle_points (sides center dist : list R) (spatial_dim : Z) : res (list (list R)) :=
  let num i := rfloor (at_ sides i / at_ dist i) in
  _ <- passert ((1 <=? num 0%nat)%Z && (1 <=? num 1%nat)%Z) ;;
  let ax i := centred_axis (num i) (at_ dist i) (at_ sides i) in
  let all_points := map (fun p => vadd p (low_lim sides center)) (mesh2 (ax 0%nat) (ax 1%nat)) in
  Ok (if (spatial_dim =? 3)%Z then map (fun p => p ++ [at_ center 2]) all_points else all_points).

(* ------------------------------------------------------------------ Disc *)
(** region.py 272-280 (Disc.is_in_region) *)
Definition disc_is_in (radius : R) (center : list R) (spatial_dim : Z) (coordinates : list (list R)) : answer :=
  if off_plane center spatial_dim coordinates then ScalarFalse
  else PerPoint (map (fun p => rle (norm (vsub (firstn 2 p) (firstn 2 center))) radius) coordinates).
(** region.py 282-302 (Disc.equally_spaced_points) *)
Definition disc_points (radius : R) (center dist : list R) (spatial_dim : Z) : list (list R) :=
  let num i := rceil (radius * 2 / at_ dist i) in
  let all_points := mesh2 (axis (num 0%nat) (at_ dist 0)) (axis (num 1%nat) (at_ dist 1)) in
  let shift := [IZR (num 0%nat - 1) * at_ dist 0 / 2; IZR (num 1%nat - 1) * at_ dist 1 / 2] in
  let all_points := map (fun p => vsub p shift) all_points in
  let all_points := filter (fun p => rle (norm p) radius) all_points in
  let all_points := if (spatial_dim =? 3)%Z then map (fun p => p ++ [0]) all_points else all_points in
  map (fun p => vadd p center) all_points.

(* ------------------------------------------------------------------ Ball *)
(** region.py 352-356 (Ball.is_in_region) *)
Definition ball_is_in (radius : R) (center : list R) (coordinates : list (list R)) : list bool :=
  map (fun p => rle (norm (vsub p center)) radius) coordinates.
(** the rows for which a boolean array is true *)
Definition select {A} (l : list A) (keep : list bool) : list A := map fst (filter snd (combine l keep)).
(** region.py 350 (Ball.__init__): the volume *)
Definition ball_volume (radius : R) : R := 4 / 3 * radius ^ 3 * PI.
(** region.py 358-366 (Ball.equally_spaced_points) *)
Definition ball_points (radius : R) (center dist : list R) : res (list (list R)) :=
  grid <- cuboid_points [2 * radius; 2 * radius; 2 * radius] [0; 0; 0] (EachSpacing dist) None ;;
  let grid := map (fun p => vadd p center) grid in
  Ok (select grid (ball_is_in radius center grid)).

(* ------------------------------------------------------------------ Cylinder *)
(** region.py 427-454 (Cylinder.is_in_region) on a list of coordinates of three numbers *)
Definition cylinder_is_in (radius height : R) (center : list R) (coordinates : list (list R)) : list bool :=
  map (fun p =>
    let c := vsub p center in
    let is_in_disc := rle (norm (firstn 2 c)) radius in
    let is_in_height := rle (- height / 2) (at_ c 2) && rle (at_ c 2) (height / 2) in
    is_in_height && is_in_disc) coordinates.
(** region.py 456-480 (Cylinder.equally_spaced_points) *)
Definition cylinder_points (radius height : R) (center dist : list R) : list (list R) :=
  let num i := rceil (at_ [radius * 2; radius * 2; height] i / at_ dist i) in
  let ax i := axis (num i) (at_ dist i) in
  let all_points := mesh3_ij (ax 0%nat) (ax 1%nat) (ax 2%nat) in
  let shift := map (fun i => IZR (num i - 1) * at_ dist i / 2) [0%nat; 1%nat; 2%nat] in
  let all_points := map (fun p => vsub p shift) all_points in
  let all_points := filter (fun p => rle (norm (firstn 2 p)) radius) all_points in
  map (fun p => vadd p center) all_points.

(* ------------------------------------------------------------------ random points *)
Section Random.
Context {G : Type} (next : G -> R * G).

(** rng.uniform(low, high): the next number, scaled *)
Definition uniform1 (low high : R) (g : G) : R * G := let (u, g) := next g in (low + (high - low) * u, g).
(** rng.uniform(low, high, num) *)
Fixpoint uniform (low high : R) (num : nat) (g : G) : list R * G :=
  match num with O => ([], g) | S num => let (x, g) := uniform1 low high g in let (l, g) := uniform low high num g in (x :: l, g) end.
(** rng.uniform(low, high, size=(num, 3)) with one limit per column; filled row by row *)
Fixpoint uniform_rows (low high : list R) (num : nat) (g : G) : list (list R) * G :=
  match num with
  | O => ([], g)
  | S num =>
      let (x, g) := uniform1 (at_ low 0) (at_ high 0) g in
      let (y, g) := uniform1 (at_ low 1) (at_ high 1) g in
      let (z, g) := uniform1 (at_ low 2) (at_ high 2) g in
      let (l, g) := uniform_rows low high num g in ([x; y; z] :: l, g)
  end.

(** region.py 118-130 (Cuboid.sample_points) *)
Definition cuboid_sample (sides center : list R) (num : nat) (g : G) : list (list R) * G :=
  uniform_rows (low_lim sides center) (high_lim sides center) num g.
(** region.py 234-253 (Rectangle.sample_points) *)
Definition rectangle_sample (sides center : list R) (spatial_dim : Z) (num : nat) (g : G) : list (list R) * G :=
  let (x, g) := uniform (at_ (low_lim sides center) 0) (at_ (high_lim sides center) 0) num g in
  let (y, g) := uniform (at_ (low_lim sides center) 1) (at_ (high_lim sides center) 1) num g in
  let points := map (fun xy => [fst xy; snd xy]) (combine x y) in
  (if (spatial_dim =? 3)%Z then map (fun p => p ++ [at_ center 2 * 1]) points else points, g).
(** region.py 304-313 (Disc.sample_points) *)
Definition disc_sample (radius : R) (center : list R) (spatial_dim : Z) (num : nat) (g : G) : list (list R) * G :=
  let (u, g) := uniform 0 1 num g in
  let r := map (fun v => radius * sqrt v) u in
  let (v, g) := uniform 0 1 num g in
  let angle := map (fun w => 2 * PI * w) v in
  let points := map (fun ra => [fst ra * cos (snd ra) + at_ center 0; fst ra * sin (snd ra) + at_ center 1]) (combine r angle) in
  (if (spatial_dim =? 3)%Z then map (fun p => p ++ [at_ center 2 * 1]) points else points, g).
(** region.py 373-384: the loop of Ball.sample_points; [accepted] are the rows of samples filled so far.
    The python loop has no bound, here it gives up after [fuel] rounds. *)
Fixpoint ball_loop (fuel : nat) (radius : R) (num : nat) (accepted : list (list R)) (g : G) : option (list (list R) * G) :=
  match fuel with
  | O => None
  | S fuel =>
      let (uniform_samples, g) := uniform_rows [- radius; - radius; - radius] [radius; radius; radius] num g in
      let filtered := filter (fun p => rle (norm p) radius) uniform_samples in
      let num_to_accept := Nat.min (length filtered) (num - length accepted) in
      let accepted := accepted ++ firstn num_to_accept filtered in
      if (num <=? length accepted)%nat then Some (accepted, g) else ball_loop fuel radius num accepted g
  end.
(** region.py 368-387 (Ball.sample_points) *)
Definition ball_sample (fuel : nat) (radius : R) (center : list R) (num : nat) (g : G) : option (list (list R) * G) :=
  match ball_loop fuel radius num [] g with None => None | Some (samples, g) => Some (map (fun p => vadd p center) samples, g) end.
(** region.py 482-500 (Cylinder.sample_points) *)
Definition cylinder_sample (radius height : R) (center : list R) (num : nat) (g : G) : list (list R) * G :=
  let (u, g) := uniform 0 1 num g in
  let r := map (fun v => radius * sqrt v) u in
  let (v, g) := uniform 0 1 num g in
  let angle := map (fun w => 2 * PI * w) v in
  let (h, g) := uniform (- height / 2) (height / 2) num g in
  (map (fun rah => [fst (fst rah) * cos (snd (fst rah)) + at_ center 0; fst (fst rah) * sin (snd (fst rah)) + at_ center 1; snd rah + at_ center 2]) (combine (combine r angle) h), g).

(* ------------------------------------------------------------------ CombinedRegion *)
(** What a combined region uses of its regions: membership, grid, random points and volume *)
Record region := mkRegion {
  rg_is_in : list (list R) -> answer;
  rg_points : res (list (list R));
  rg_sample : nat -> G -> list (list R) * G;
  rg_volume : R;
  rg_rng : G
}.
(** The regions as objects of this record, with the volumes of region.py 80, 183, 270, 425 (a ball needs fuel and is left out here) *)
Definition cuboid (sides center spacing : list R) (g : G) : region :=
  mkRegion (fun c => PerPoint (cuboid_is_in sides center [0; 0; 0] c)) (cuboid_points sides center (EachSpacing spacing) None) (cuboid_sample sides center) (fold_right Rmult 1 sides) g.
Definition rectangle (sides center spacing : list R) (spatial_dim : Z) (g : G) : res region :=
  _ <- plane_ctor center spatial_dim ;;
  Ok (mkRegion (rectangle_is_in sides center [0; 0] spatial_dim) (rectangle_points sides center spacing spatial_dim) (rectangle_sample sides center spatial_dim) (fold_right Rmult 1 sides) g).
Definition disc (radius : R) (center spacing : list R) (spatial_dim : Z) (g : G) : res region :=
  _ <- plane_ctor center spatial_dim ;;
  Ok (mkRegion (disc_is_in radius center spatial_dim) (Ok (disc_points radius center spacing spatial_dim)) (disc_sample radius center spatial_dim) (radius ^ 2 * PI) g).
Definition cylinder (radius height : R) (center spacing : list R) (g : G) : region :=
  mkRegion (fun c => PerPoint (cylinder_is_in radius height center c)) (Ok (cylinder_points radius height center spacing)) (cylinder_sample radius height center) (radius ^ 2 * PI * height) g.

(** region.py 42-47: r against the other regions; they are compared by their place in the list *)
Definition overlaps_one (i : nat) (fixed sampled : list (list R)) (regions : list region) : bool :=
  existsb (fun jo => negb (Nat.eqb (fst jo) i) && (np_any (rg_is_in (snd jo) fixed) || np_any (rg_is_in (snd jo) sampled))) (combine (seq 0 (length regions)) regions).
(** region.py 38-48 (_overlaps): sampling moves the generator of the region on *)
Fixpoint overlaps_from (i : nat) (todo regions : list region) : res (bool * list region) :=
  match todo with
  | [] => Ok (false, [])
  | r :: todo =>
      fixed <- rg_points r ;;
      let (sampled, g) := rg_sample r 100 (rg_rng r) in
      let r := mkRegion (rg_is_in r) (rg_points r) (rg_sample r) (rg_volume r) g in
      if overlaps_one i fixed sampled regions then Ok (true, r :: todo)
      else br <- overlaps_from (S i) todo regions ;; Ok (fst br, r :: snd br)
  end.
Record combined := mkCombined { cr_regions : list region; cr_volumes : list R; cr_volume : R; cr_rng : G }.
(** region.py 30-36 (CombinedRegion.__init__) *)
Definition combined_ctor (regions : list region) (g : G) : res combined :=
  br <- overlaps_from 0 regions regions ;;
  _ <- passert (negb (fst br)) ;;
  let volumes := map rg_volume (snd br) in
  Ok (mkCombined (snd br) volumes (rsum volumes) g).
(** region.py 50-51 (CombinedRegion.is_in_region): logical_or with one argument *)
Definition combined_is_in (c : combined) (coordinates : list (list R)) : res (list bool) :=
  let _ := map (fun r => rg_is_in r coordinates) (cr_regions c) in Err TypeError.
(** region.py 53-54 (CombinedRegion.equally_spaced_points); np.concatenate of nothing raises ValueError *)
Definition combined_points (c : combined) : res (list (list R)) :=
  each <- mapM rg_points (cr_regions c) ;; match each with [] => Err ValueError | _ => Ok (concat each) end.
(** region.py 57-61: the region chosen for one uniform number *)
Definition region_index (volumes : list R) (volume : R) (test_val : R) : Z :=
  let sample_limit := cumsum 0 (map (fun v => v / volume) volumes) in
  (zlen (filter (rlt test_val) sample_limit) - 1)%Z.
(** region.py 62: np.unique with counts; the numbers from low on *)
Fixpoint counts_from (low : Z) (fuel : nat) (idx : list Z) : list (Z * nat) :=
  match fuel with
  | O => []
  | S fuel => let n := length (filter (Z.eqb low) idx) in (if Nat.eqb n 0 then [] else [(low, n)]) ++ counts_from (low + 1) fuel idx
  end.
Definition unique_counts (k : nat) (idx : list Z) : list (Z * nat) := counts_from (-1) (S k) idx.
(** region.py 63-64: each region samples its share, in the order of the indices; the generators of the regions move on *)
Fixpoint sample_each (regions : list region) (shares : list (Z * nat)) : res (list (list R) * list region) :=
  match shares with
  | [] => Ok ([], regions)
  | (i, n) :: shares =>
      r <- pyget regions i ;;
      let (points, g) := rg_sample r n (rg_rng r) in
      let r' := mkRegion (rg_is_in r) (rg_points r) (rg_sample r) (rg_volume r) g in
      let place := Z.to_nat (if (i <? 0)%Z then i + zlen regions else i) in
      rest <- sample_each (firstn place regions ++ r' :: skipn (S place) regions) shares ;;
      Ok (points ++ fst rest, snd rest)
  end.
(** region.py 56-66 (CombinedRegion.sample_points); np.concatenate of nothing raises ValueError *)
Definition combined_sample (c : combined) (num : nat) : res (list (list R) * combined) :=
  let (test_val, g) := uniform 0 1 num (cr_rng c) in
  let idx := map (region_index (cr_volumes c) (cr_volume c)) test_val in
  let shares := unique_counts (length (cr_regions c)) idx in
  _ <- (match shares with [] => Err ValueError | _ => Ok tt end) ;;
  pr <- sample_each (cr_regions c) shares ;;
  _ <- passert (Nat.eqb (length (fst pr)) num) ;;
  Ok (fst pr, mkCombined (snd pr) (cr_volumes c) (cr_volume c) g).
End Random.
