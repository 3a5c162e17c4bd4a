(** Model of src/aspsim/room/generatepoints.py over the real numbers; floating point rounding and signed zeros are not modelled.
    A point is the list of its coordinates, numbers of points are natural numbers, arrays combined with each other have the same length.
    equidistant_rectangle_old and equidistant_rectangle_for_fewer (425-507) are in RectModel.
    Random numbers are modelled as in RegionModel. *)
Require Import Verif.PyBase.
Require Import Verif.SineModel Verif.TrajModel Verif.RegionModel.
Set Implicit Arguments.
Local Open Scope list_scope.
Local Open Scope R_scope.

(** np.arctan2 *)
Definition arctan2 (y x : R) : R :=
  if rlt 0 x then atan (y / x)
  else if rlt x 0 then (if rle 0 y then atan (y / x) + PI else atan (y / x) - PI)
  else if rlt 0 y then PI / 2 else if rlt y 0 then - (PI / 2) else 0.
(** np.linspace(a, b, num) *)
Definition linspace (a b : R) (num : nat) : list R :=
  map (fun k => if (num =? 1)%nat then a else a + INR k * ((b - a) / INR (num - 1))) (seq 0 num).
(** l[1::2] *)
Fixpoint odd_entries {A} (l : list A) : list A := match l with _ :: x :: r => x :: odd_entries r | _ => [] end.
(** the optional last column z *)
Definition with_z (z : option R) (p : list R) : list R := match z with Some z => p ++ [z] | None => p end.

(* ------------------------------------------------------------------ coordinates *)
(** generatepoints.py 4-25 (cart2spherical) *)
Definition cart2spherical (cart_coord : list (list R)) : list R * list (list R) :=
  let r := map norm cart_coord in
  let r_xy := map (fun p => norm (firstn 2 p)) cart_coord in
  let theta := map (fun p => arctan2 (at_ p 1) (at_ p 0)) cart_coord in
  let phi := map (fun pr => arctan2 (snd pr) (at_ (fst pr) 2)) (combine cart_coord r_xy) in
  (r, map (fun a => [fst a; snd a]) (combine theta phi)).
(** generatepoints.py 27-49 (spherical2cart) *)
Definition spherical2cart (r : list R) (angle : list (list R)) : list (list R) :=
  map (fun ra =>
    let '(r, a) := ra in
    [r * cos (at_ a 0) * sin (at_ a 1); r * sin (at_ a 0) * sin (at_ a 1); r * cos (at_ a 1)]) (combine r angle).
(** generatepoints.py 51-70 (cart2pol) *)
Definition cart2pol (x y : list R) : list R * list R := (vzip (fun x y => sqrt (x ^ 2 + y ^ 2)) x y, vzip arctan2 y x).
(** generatepoints.py 72-91 (pol2cart) on arrays *)
Definition pol2carts (r angle : list R) : list R * list R := (vzip (fun r a => r * cos a) r angle, vzip (fun r a => r * sin a) r angle).

(* ------------------------------------------------------------------ circles *)
Inductive radius_arg := Radius (r : R) | Radii (r0 r1 : R).
Section Circles.
Context {G : Type} (next : G -> R * G).
(** generatepoints.py 94-140 (equiangular_circle) with the generator [rng] *)
Definition equiangular_circle (num_points : nat) (radius : radius_arg) (start_angle : R) (z : option R) (rng : G) : res (list (list R)) :=
  let '(r0, r1) := match radius with Radius r => (r, r) | Radii r0 r1 => (r0, r1) end in
  if (num_points =? 0)%nat then Err ZeroDivisionError else
  let angle_step := 2 * PI / INR num_points in
  let angles := map (fun k => start_angle + INR k * angle_step) (seq 0 num_points) in
  let angles := map (fun a => rmod a (2 * PI)) angles in
  let (radia, _) := uniform next r0 r1 num_points rng in
  let (x, y) := pol2carts radia angles in
  Ok (map (fun p => with_z z [fst p; snd p]) (combine x y)).
(** generatepoints.py 235-241, 403-406: the heights of [n] layers *)
Definition layer_heights (n : nat) (z_distance : R) : list R :=
  let a := (Z.of_nat n / 2)%Z in
  let zValues := map (fun i => IZR i * z_distance) (zrange (- a) (- a + Z.of_nat n)) in
  if (n mod 2 =? 0)%nat then map (fun zVal => zVal + z_distance / 2) zValues else zValues.
(** generatepoints.py 243-245, 408-410: the number of points in each layer; the loop that adds one to the first layers is written per layer *)
Definition points_per_layer (num_points n : nat) : res (list nat) :=
  if (n =? 0)%nat then Err ZeroDivisionError else
  let q := (num_points / n)%nat in
  Ok (map (fun i => if (i <? num_points - n * q)%nat then (q + 1)%nat else q) (seq 0 n)).
(** generatepoints.py 247-256: the start angles; [g] is the global generator of numpy *)
Definition start_angles (angle_offset : string) (num_circles first : nat) (g : G) : res (list R) :=
  if String.eqb angle_offset "random" then Ok (map (fun u => u * PI * 2) (fst (uniform next 0 1 num_circles g)))
  else if String.eqb angle_offset "same" then Ok (map (fun _ => 0) (seq 0 num_circles))
  else if String.eqb angle_offset "almostSame" then
    if (first =? 0)%nat then Err ZeroDivisionError else
    Ok (map (fun u => u * (2 * PI / INR first / 10)) (fst (uniform next 0 1 num_circles g)))
  else if String.eqb angle_offset "distribute" then
    if (first =? 0)%nat then Err ZeroDivisionError else
    Ok (map (fun i => INR i * (2 * PI / INR first) / INR num_circles) (seq 0 num_circles))
  else Err UnboundLocalError.
(** generatepoints.py 232-266 (concentrical_circles); circle [i] uses the new generator [fresh i] *)
Definition concentrical_circles (num_points num_circles : nat) (radius : radius_arg) (z_distance : option R) (angle_offset : string)
    (g : G) (fresh : nat -> G) : res (list (list R)) :=
  let zValues := match z_distance with Some d => map Some (layer_heights num_circles d) | None => map (fun _ => None) (seq 0 num_circles) end in
  pointsPerCircle <- points_per_layer num_points num_circles ;;
  startAngles <- start_angles angle_offset num_circles (nth 0 pointsPerCircle 0%nat) g ;;
  coords <- mapM (fun c => let '(i, (circlePoints, (angle, zVal))) := c in equiangular_circle circlePoints radius angle zVal (fresh i))
    (combine (seq 0 num_circles) (combine pointsPerCircle (combine startAngles zValues))) ;;
  Ok (concat coords).
End Circles.

(* ------------------------------------------------------------------ rectangles *)
(** generatepoints.py 144-224 (equidistant_rectangle) with sides [sx], [sy] and extra side lengths [ex], [ey] *)
Definition equidistant_rectangle (num_points : nat) (sx sy ex ey offset : R) (z : option R) : res (list (list R)) :=
  _ <- passert (rlt 0 sx && rlt 0 sy) ;;
  _ <- passert (rle 0 offset && rle offset 1) ;;
  let circumference := 2 * (sx + sy) in
  let mic_distance := circumference / INR num_points in
  let pos_on_circumference := map (fun k => INR k * (circumference / INR num_points)) (seq 0 num_points) in
  let pos_on_circumference := map (fun p => p + offset * mic_distance) pos_on_circumference in
  let x_extent := [- sx / 2; sx / 2] in
  let y_extent := [- sy / 2; sy / 2] in
  let breakpoints := cumsum 0 [0; sx; sy; sx; sy] in
  let idxs i := map (fun p => rle (at_ breakpoints i) p && rlt p (at_ breakpoints (S i))) pos_on_circumference in
  let fixed side add := map (fun k => if Nat.odd k then side + add else side) (seq 0 num_points) in
  let stack x y := map (fun p => [fst p; snd p]) (combine x y) in
  let side0 :=
    let pos_side := map (fun p => p - at_ breakpoints 0 - at_ x_extent 1) (select pos_on_circumference (idxs 0%nat)) in
    stack pos_side (select (fixed (at_ y_extent 1) (ey / 2)) (idxs 0%nat)) in
  let side1 :=
    let pos_side := map (fun p => - (p - at_ breakpoints 1 - at_ y_extent 1)) (select pos_on_circumference (idxs 1%nat)) in
    stack (select (fixed (at_ x_extent 1) (ex / 2)) (idxs 1%nat)) pos_side in
  let side2 :=
    let pos_side := map (fun p => - (p - at_ breakpoints 2 - at_ x_extent 1)) (rev (select pos_on_circumference (idxs 2%nat))) in
    stack pos_side (select (fixed (at_ y_extent 0) (- (ey / 2))) (idxs 2%nat)) in
  let side3 :=
    let pos_side := map (fun p => p - at_ breakpoints 3 - at_ y_extent 1) (select pos_on_circumference (idxs 3%nat)) in
    stack (select (fixed (at_ x_extent 0) (- (ex / 2))) (idxs 3%nat)) pos_side in
  Ok (map (with_z z) (side0 ++ side1 ++ side2 ++ side3)).
(** generatepoints.py 386-396: one round of the loop over the odd rows *)
Definition push_out (side_length side_offset : R) (p : list R) : res (list R) :=
  let '(x, y, z) := (at_ p 0, at_ p 1, at_ p 2) in
  if isclose x (side_length / 2) then Ok [x + side_offset; y; z]
  else if isclose x (- side_length / 2) then Ok [x - side_offset; y; z]
  else if isclose y (side_length / 2) then Ok [x; y + side_offset; z]
  else if isclose y (- side_length / 2) then Ok [x; y - side_offset; z]
  else Err ValueError.
(** generatepoints.py 355-397 (four_equidistant_rectangles) *)
Definition four_equidistant_rectangles (num_points : nat) (side_length side_offset z_low z_high : R) (offset : string) : res (list (list R)) :=
  if negb (String.eqb offset "distributed") then Err NotImplementedError else
  xy <- equidistant_rectangle num_points side_length side_length 0 0 (1 / 2) None ;;
  let points := map (fun ip => snd ip ++ [if (2 <=? fst ip mod 4)%nat then z_high else z_low]) (combine (seq 0 num_points) xy) in
  mapM (fun ip => if Nat.odd (fst ip) then push_out side_length side_offset (snd ip) else Ok (snd ip)) (combine (seq 0 num_points) points).
(** generatepoints.py 400-422 (stacked_equidistant_rectangles) *)
Definition stacked_equidistant_rectangles (num_points num_rect : nat) (dx dy z_distance : R) : res (list (list R)) :=
  let zValues := layer_heights num_rect z_distance in
  pointsPerRect <- points_per_layer num_points num_rect ;;
  let offsets := odd_entries (linspace 0 1 (2 * num_rect + 1)) in
  layers <- mapM (fun c => let '(n, (offset, z)) := c in l <- equidistant_rectangle n dx dy 0 0 offset None ;; Ok (map (fun p => p ++ [z]) l))
    (combine pointsPerRect (combine offsets zValues)) ;;
  Ok (concat layers).

(* ------------------------------------------------------------------ filled shapes *)
(** generatepoints.py 290-300 (sunflower_pattern) *)
Definition sunflower_pattern (N : nat) (radius offset_angle : R) : list (list R) :=
  let phisq := ((sqrt 5 + 1) / 2) ^ 2 in
  let k := map INR (seq 1 N) in
  let r := map (fun k => radius * sqrt (k - 1 / 2) / sqrt (INR N - 1 / 2)) k in
  let theta := map (fun k => k * 2 * PI / phisq) k in
  let (x, y) := pol2carts r theta in
  map (fun p => [fst p; snd p]) (combine x y).
(** generatepoints.py 272-286 (uniform_cylinder); [offsets] are the four numbers drawn by np.random.rand *)
Definition uniform_cylinder (num_points : nat) (radius height : R) (offsets : nat -> R) : list (list R) :=
  let zVals := linspace (- height / 2) (height / 2) (4 + 2) in
  let zVals := removelast (tl zVals) in
  let pointsPerPlane := (num_points / 4)%nat in
  concat (map (fun n => map (fun p => p ++ [at_ zVals n]) (sunflower_pattern pointsPerPlane radius (offsets n * 2 * PI))) (seq 0 4)).
(** generatepoints.py 303-321 (uniform_disc); int(...) of a negative number is not modelled, the distance is positive *)
Definition uniform_disc (point_distance radius : R) (z_axis : option R) : list (list R) :=
  let numPoints := Z.to_nat (rfloor (2 * radius / point_distance)) in
  let x := linspace (- radius) radius numPoints in
  let coords := mesh2 x x in
  map (with_z z_axis) (filter (fun p => rle (norm p) radius) coords).
(** int(np.sqrt(x)) *)
Definition int_sqrt (x : R) : nat := Z.to_nat (rfloor (sqrt x)).
(** generatepoints.py 324-341 (uniform_filled_rectangle) *)
Definition uniform_filled_rectangle (num_points : nat) (lim : list R) (z_axis : option R) : res (list (list R)) :=
  let pointsPerAxis := int_sqrt (INR num_points) in
  _ <- passert (isclose (INR pointsPerAxis ^ 2) (INR num_points)) ;;
  xy <- match lim with
        | [a; b] => Ok (linspace a b pointsPerAxis, linspace a b pointsPerAxis)
        | [a; b; c; d] => Ok (linspace a c pointsPerAxis, linspace b d pointsPerAxis)
        | _ => Err UnboundLocalError
        end ;;
  Ok (map (with_z z_axis) (mesh2 (fst xy) (snd xy))).
(** generatepoints.py 343-352 (uniform_filled_cuboid) *)
Definition uniform_filled_cuboid (num_points : nat) (dims : list R) (z_num_points : nat) : res (list (list R)) :=
  if (z_num_points =? 0)%nat then Err ZeroDivisionError else
  let pointsPerAxis := int_sqrt (INR num_points / INR z_num_points) in
  _ <- passert (isclose (INR pointsPerAxis ^ 2 * INR z_num_points) (INR num_points)) ;;
  let ax i n := odd_entries (linspace (- at_ dims i / 2) (at_ dims i / 2) (2 * n + 1)) in
  Ok (mesh3 (ax 0%nat pointsPerAxis) (ax 1%nat pointsPerAxis) (ax 2%nat z_num_points)).
