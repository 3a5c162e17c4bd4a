(** Model of the two earlier ways to place points on a rectangle, src/aspsim/room/generatepoints.py 425-507, over the real numbers.
    A point is the list of its coordinates.  The library does not call them.  Rectangles without extent, for which the spacing is 0 and the division fails, are not modelled. *)
Require Import Verif.PyBase.
Require Import Verif.SineModel Verif.TrajModel Verif.RegionModel Verif.PointsModel.
Set Implicit Arguments.
Local Open Scope list_scope.
Local Open Scope R_scope.

(** int(x) of a number: towards zero *)
Definition rint (x : R) : Z := if rlt x 0 then (- rfloor (- x))%Z else rfloor x.
(** one side: its length, the corner it starts at and its direction, generatepoints.py 441-447 and 487-492 *)
Record side := mkSide { sd_length : R; sd_x : R; sd_y : R; sd_fx : R; sd_fy : R }.
Definition sides (dx dy : R) : list side :=
  [mkSide dx (- dx / 2) (- dy / 2) 1 0; mkSide dy (dx / 2) (- dy / 2) 0 1; mkSide dx (dx / 2) (dy / 2) (-1) 0; mkSide dy (- dx / 2) (dy / 2) 0 (-1)].
(** generatepoints.py 450-461 and 495-505: one round of the loop.  The state is points, numCounter and startPos.  The two columns are assigned together; both assignments
    fail under the same condition. *)
Definition place_side (pointDist : R) (st : list (list R) * Z * R) (s : side) : res (list (list R) * Z * R) :=
  let '(points, numCounter, startPos) := st in
  let numAxisPoints := (1 + rint ((sd_length s - startPos) / pointDist))%Z in
  let axisPoints := map (fun k => startPos + IZR k * pointDist) (zrange 0 numAxisPoints) in
  match zget axisPoints (zlen axisPoints - 1) with
  | None => Err IndexError
  | Some end_ =>
      let distLeft := sd_length s - end_ in
      points <- pyslice_set points numCounter (numCounter + numAxisPoints) (map (fun a => [sd_x s + sd_fx s * a; sd_y s + sd_fy s * a]) axisPoints) ;;
      Ok (points, (numCounter + numAxisPoints)%Z, pointDist - distLeft)
  end.
(** generatepoints.py 431-434, 440-461: [num_points] points on the four sides *)
Definition place_sides (num_points : Z) (dx dy pointDist startPos : R) : res (list (list R)) :=
  st <- foldM (place_side pointDist) (zrep num_points [0; 0], 0%Z, startPos) (sides dx dy) ;; Ok (fst (fst st)).

(** generatepoints.py 425-464 (equidistant_rectangle_old) for num_points >= 0 *)
Definition equidistant_rectangle_old (num_points : Z) (dx dy offset : R) (z : option R) : res (list (list R)) :=
  if (num_points =? 0)%Z then Ok []
  else
    let totalLength := 2 * (dx + dy) in
    let pointDist := totalLength / IZR num_points in
    points <- (if (num_points <? 4)%Z then l <- equidistant_rectangle 4 dx dy 0 0 (1 / 2) None ;; Ok (pyslice l 0 num_points)
               else place_sides num_points dx dy pointDist (pointDist * offset)) ;;
    Ok (map (with_z z) points).

Section Fewer.
Context {G : Type} (next : G -> R * G).
(** np.random.choice([-1, 1]) *)
Context (choice : G -> bool * G).
Definition sign (c : bool) : R := if c then 1 else -1.
(** generatepoints.py 467-507 (equidistant_rectangle_for_fewer) for num_points >= 0; [next] is np.random.rand() *)
Definition equidistant_rectangle_for_fewer (num_points : Z) (dx dy : R) (g : G) : res (list (list R) * G) :=
  if (num_points =? 0)%Z then Err ZeroDivisionError
  else
    let totalLength := 2 * (dx + dy) in
    let pointDist := totalLength / IZR num_points in
    if (num_points =? 1)%Z then
      let (u, g) := next g in
      let (c, g) := choice g in
      Ok ([[u * dx / 4 - dx / 4; sign c * dy / 2]], g)
    else if (num_points =? 2)%Z then
      let (u, g) := next g in
      let (v, g) := next g in
      Ok ([[u * dx / 4 - dx / 4; dy / 2]; [v * dx / 4 - dx / 4; dy / 2]], g)
    else if (num_points =? 3)%Z then
      let (u, g) := next g in
      let (v, g) := next g in
      let (c, g) := choice g in
      let (w, g) := next g in
      Ok ([[u * dx / 4 - dx / 4; dy / 2]; [v * dx / 4 - dx / 4; dy / 2]; [sign c * dx / 2; w * dy / 4 - dy / 4]], g)
    else
      let (u, g) := next g in
      points <- place_sides num_points dx dy pointDist (u * pointDist) ;;
      Ok (points, g).
End Fewer.
