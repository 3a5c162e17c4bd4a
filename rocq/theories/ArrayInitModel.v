(** Model of the constructor of Array (src/aspsim/array.py 460-538), of the index groups it builds,
    and of FreeSourceArray.set_source. *)
Require Import Verif.PyBase.
Set Implicit Arguments.

Section Init.
Variable P : Type.                       (* a coordinate *)
Notation row := (list P).

(** A two-dimensional ndarray: number of columns and rows. Arrays of another number of dimensions
    are not represented (line 516 rejects them). *)
Record grid := mkGrid { gr_cols : Z; gr_rows : list row }.

(** array.py 493-519: the accepted types of the argument pos. *)
Inductive posarg :=
| PList (segments : list grid)           (* list or tuple of ndarrays *)
| PArray (g : grid)
| PTrajectory (at_time : Z -> grid)      (* trajectory.current_pos *)
| POther.

(** array.py 493-538: the attributes set by the constructor; pos_segments of a moving array holds
    the trajectory itself, here []. *)
Record init := mkInit {
  in_group_idxs : option (list (list Z));
  in_num_groups : Z;
  in_pos : grid;
  in_segments : list grid;
  in_dynamic : bool;
  in_num : Z;
  in_dirtype : list string
}.

(** np.cumsum *)
Fixpoint cumsum (acc : Z) (l : list Z) : list Z :=
  match l with [] => [] | x :: r => (acc + x) :: cumsum (acc + x) r end.

(** array.py 495-496: num_in_group and group_idxs; an index out of range would raise. *)
Definition num_in_group (segments : list grid) : list Z :=
  cumsum 0 (0 :: map (fun g => zlen (gr_rows g)) segments).
Definition group_idxs (segments : list grid) : res (list (list Z)) :=
  let n := num_in_group segments in
  mapM (fun i => match zget n i, zget n (i + 1) with
                 | Some a, Some b => Ok (zrange a b)
                 | _, _ => Err IndexError
                 end) (zrange 0 (zlen n - 1)).

(** np.concatenate(segments, axis=0): ValueError for no array and for different widths. *)
Definition concatenate (segments : list grid) : res grid :=
  match segments with
  | [] => Err ValueError
  | g :: r => if forallb (fun h => gr_cols h =? gr_cols g) r
              then Ok (mkGrid (gr_cols g) (concat (map gr_rows segments))) else Err ValueError
  end.

Definition directivities : list string :=
  ["omni"; "cardioid"; "hypercardioid"; "supercardioid"; "bidirectional"]%string.

(** array.py 518-530: directivity arguments. [unit_norm] tells whether np.allclose(norm, 1) holds
    for a row. *)
Definition directivity (unit_norm : row -> bool) (num : Z) (dtype : option (list string)) (ddir : option grid)
    : res (list string) :=
  match dtype, ddir with
  | None, None => Ok (zrep num "omni"%string)
  | Some t, Some d =>
    _ <- passert (zlen t =? num) ;;
    _ <- passert (zlen (gr_rows d) =? num) ;;
    _ <- passert (forallb (fun x => smem x directivities) t) ;;
    _ <- passert (forallb unit_norm (gr_rows d)) ;;
    Ok t
  | _, _ => Err AssertionError
  end.

(** array.py 460-538: Array.__init__. *)
Definition array_init (unit_norm : row -> bool) (pos : posarg) (dtype : option (list string)) (ddir : option grid)
    : res init :=
  b <- match pos with
       | PList segs =>
         idx <- group_idxs segs ;;
         p <- concatenate segs ;;
         Ok (Some idx, zlen segs, p, segs, false)
       | PArray g => Ok (None, 1, g, [g], false)
       | PTrajectory tr => Ok (None, 1, tr 0, [], true)
       | POther => Err ValueError
       end ;;
  let '(idx, ng, p, segs, dyn) := b in
  let num := zlen (gr_rows p) in
  dt <- directivity unit_norm num dtype ddir ;;
  Ok (mkInit idx ng p segs dyn num dt).

(** array.py 540-550: set_groups performs no check. *)
Definition set_groups (a : init) (idxs : list (list Z)) : init :=
  mkInit (Some idxs) (zlen idxs) (in_pos a) (in_segments a) (in_dynamic a) (in_num a) (in_dirtype a).

(** array.py 668-670: FreeSourceArray.set_source; only the number of channels of the source matters. *)
Definition set_source_check (a : init) (num_channels : Z) : res unit := passert (num_channels =? in_num a).
End Init.
