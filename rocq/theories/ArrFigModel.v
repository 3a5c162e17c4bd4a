(** Model of the figure of all arrays that create_simulator draws: array.py 321-352 (ArrayCollection.plot), 552-556 (Array.plot) and the plot
    functions of room/trajectory.py, over the real numbers.  A figure is the list of the curves handed to matplotlib, each with
    its label and the two coordinates of its points, and the rectangle of the room. *)
Require Import Verif.PyBase Verif.SineModel Verif.TrajModel.
Set Implicit Arguments.
Local Open Scope string_scope.
Local Open Scope list_scope.
Local Open Scope R_scope.

(** points[:,0] and points[:,1] of array.py 556 and trajectory.py 145; the points have at least two coordinates *)
Definition flat (p : list R) : R * R := (nth 0 p 0, nth 1 p 0).
(** trajectory.py 136-145 (LinearTrajectory.plot): the anchor points drawn; [tot_samples] is never None when called by Array.plot *)
Definition linear_plot (l : linear) (tot_samples : R) : list (R * R) :=
  map flat (if rle (l_period l) tot_samples then l_points l
            else firstn (Z.to_nat (argmax_above tot_samples (l_cumulative l))) (l_points l)).

(** trajectory.py 56-93 (LinearTrajectory.__init__): the attributes that plot reads, see [linear_trajectory] in TrajModel *)
Definition linear_attributes (points : list (list R)) (period samplerate : R) (mode : string) : res linear :=
  points <- close_way points ;;
  if String.eqb mode "constant_speed" then constant_speed points period samplerate
  else if String.eqb mode "constant_time" then Ok (constant_time points period samplerate)
  else Err ValueError.

(** trajectory.py 248-262 (CircularTrajectory.plot); [pos] is pos_func.  x // 1000 is the floor of x / 1000; np.arange with a step of
    zero raises ZeroDivisionError, otherwise it has ceil(stop / step) elements. *)
Definition circular_plot (pos : R -> R * R * R) (radial_period angle_period samplerate : R) : res (list (R * R)) :=
  let max_samples := samplerate * Rmax radial_period angle_period in
  let samples_per_point := Int_part (max_samples / 1000) in
  if (samples_per_point =? 0)%Z then Err ZeroDivisionError
  else
    let num_points := (- Int_part (- (max_samples / IZR samples_per_point)))%Z in
    Ok (map (fun i => let p := pos (IZR i * IZR samples_per_point) in (fst (fst p), snd (fst p))) (zrange 0 num_points)).

(** trajectory.py 4-266, the trajectory of an array: of the base class, whose plot (32-33) draws nothing, linear, or circular *)
Inductive trajectory := TBase | TLinear (l : linear) | TCircular (pos : R -> R * R * R) (radial_period angle_period samplerate : R).
Definition trajectory_plot (t : trajectory) (tot_samples : R) : res (list (list (R * R))) :=
  match t with
  | TBase => Ok []
  | TLinear l => Ok [linear_plot l tot_samples]
  | TCircular pos radial_period angle_period samplerate => c <- circular_plot pos radial_period angle_period samplerate ;; Ok [c]
  end.
(** array.py 552-556, the positions of an array; a TrajectoryCollection (trajectory.py 51-53) draws its trajectories one after the other and is
    modelled for the trajectories above only *)
Inductive placed := Static (pos : list (list R)) | Moving (l : list trajectory).
(** array.py 552-556 (Array.plot); the label is the array's name *)
Definition array_plot (tot_samples : R) (name : string) (p : placed) : res (list (string * list (R * R))) :=
  match p with
  | Static pos => Ok [(name, map flat pos)]
  | Moving l => cs <- mapM (fun t => trajectory_plot t tot_samples) l ;; Ok (map (fun c => (name, c)) (concat cs))
  end.

(** array.py 345: a patches.Rectangle: its corner, width and height *)
Record rectangle := mkRect { r_corner : list R; r_width : R; r_height : R }.
(** array.py 321-352 (ArrayCollection.plot) up to output_plot, see FigModel.  [path_types] are the types of all paths between a source and a
    microphone array.  The room has at least two dimensions; sizes and centres have equal lengths (C78). *)
Definition collection_plot (arrays : list (string * placed)) (path_types : list string) (tot_samples : R) (room_center room_size : list R)
  : res (list (string * list (R * R)) * option rectangle) :=
  curves <- mapM (fun np => array_plot tot_samples (fst np) (snd np)) arrays ;;
  let room :=
    if smem "ism" path_types then
      let corner := map (fun cs => fst cs - snd cs / 2) (combine (firstn 2 room_center) (firstn 2 room_size)) in
      Some (mkRect corner (nth 0 room_size 0) (nth 1 room_size 0))
    else None in
  Ok (concat curves, room).
