(** Model of room/roomimpulseresponse.py 182-212: the conversion of directivities into objects of pyroomacoustics.  No code calls it
    at the moment: directional microphones are refused (C53).  Angles and directions are real numbers. *)
Require Import Verif.PyBase Verif.PointsModel.
From Coq Require Import Reals.
Set Implicit Arguments.
Local Open Scope string_scope.
Local Open Scope list_scope.
Local Open Scope Z_scope.

(** pradir.CardioidFamily with the pattern CARDIOID: azimuth and colatitude, in radians, of its orientation *)
Record dir_obj := mkDir { azimuth : R; colatitude : R }.

(** roomimpulseresponse.py 182-191 (_cardoid_to_pyroomacoustics); dir_dir.shape[1] is the length of its rows; [angles[0, 0]] of an
    array without rows raises an IndexError.  [width] is dir_dir.shape[1]. *)
Definition cardoid_to_pyroomacoustics (width : Z) (dir_dir : list (list R)) : res dir_obj :=
  _ <- passert (width =? 3) ;;
  let '(radius, angles) := cart2spherical dir_dir in
  match angles with
  | [] => Err IndexError
  | row :: _ => Ok (mkDir (nth 0 row 0%R) (nth 1 row 0%R))
  end.

(** roomimpulseresponse.py 193-212 (_directionality_arg_to_pyroomacoustics); [dir_dir] is None or an array of two dimensions *)
Definition directionality_arg_to_pyroomacoustics (dir_type : option (list string)) (width : Z) (dir_dir : option (list (list R))) : res (option (list dir_obj)) :=
  match dir_type with
  | None => _ <- passert (match dir_dir with None => true | Some _ => false end) ;; Ok None
  | Some types =>
    if 1 <? zlen types then
      if forallb (fun dt => String.eqb dt "omni") types then Ok None
      else if forallb (fun dt => String.eqb dt "cardioid") types then
        match dir_dir with
        | None => Err TypeError
        | Some rows => l <- mapM (fun i => cardoid_to_pyroomacoustics width (pyslice rows i (i + 1))) (zrange 0 (zlen types)) ;; Ok (Some l)
        end
      else Err NotImplementedError
    else match types with
    | [] => Err IndexError
    | t :: _ =>
      if String.eqb t "cardioid" then
        match dir_dir with
        | None => Err AttributeError
        | Some rows => o <- cardoid_to_pyroomacoustics width rows ;; Ok (Some [o])
        end
      else if String.eqb t "omni" then Ok None
      else Err NotImplementedError
    end
  end.
