(** Model of helpers that nothing else in the library calls: mean_near_time_idx of diagnostics/diagnosticsummary.py,
    tikzplotlib_fix_ncols and plot_3d_in_2d of diagnostics/plot.py, size_of_2d_plot and compare_soundfields of
    diagnostics/soundfieldplot.py. *)
Require Import Verif.PyBase Verif.PlotModel Verif.ExportModel Verif.FigModel.
From Coq Require Import Reals.
Local Open Scope string_scope.
Local Open Scope list_scope.
Local Open Scope Z_scope.

(* ------------------------------------------------------------------ diagnosticsummary.py *)
(** val[np.logical_not(np.isnan(val))]: the values of all channels that are not NaN (None) *)
Definition known {A} (channels : list (list (option A))) : list A :=
  flat_map (fun v => match v with Some x => [x] | None => [] end) (concat channels).
(** diagnosticsummary.py 22-31 (mean_near_time_idx).  An output is a list of channels; the mean of no values is NaN (None). *)
Definition mean_near_time_idx (outputs : list (string * list (list (option R)))) (timeIdx : Z) : list (string * option R) :=
  let numToAverage := 3000 in
  map (fun ko => (fst ko, np_mean (known (map (fun ch => pyslice ch (timeIdx - numToAverage) timeIdx) (snd ko))))) outputs.

(* ------------------------------------------------------------------ plot.py *)
(** A matplotlib artist: the attributes _ncols and _ncol, if it has them, and its children.  That artists form a tree, in
    which no artist has two parents, is a simplification. *)
Inductive artist (A : Type) := Artist (ncols ncol : option A) (children : list (artist A)).
Arguments Artist {A}.
(** plot.py 38-45 (tikzplotlib_fix_ncols) *)
Fixpoint fix_ncols {A} (obj : artist A) : artist A :=
  let '(Artist ncols ncol children) := obj in
  Artist ncols (match ncols with Some n => Some n | None => ncol end) (map fix_ncols children).

(** plot.py 127-138 (plot_3d_in_2d): the groups of points that are drawn, with the z in their label.  Coordinates are integers
    in units of 10^-4 / u (see PlotModel). *)
Definition plot_3d_in_2d (u : Z) (posData : list (Z * Z * Z)) : list (Z * list (Z * Z)) :=
  let uniqueZValues := np_unique (map (fun p => np_round u (snd p)) posData) in
  map (fun zVal => (zVal, map fst (filter (fun p => np_round u (snd p) =? zVal) posData))) uniqueZValues.

(* ------------------------------------------------------------------ soundfieldplot.py *)
(** np.max and np.min of integers *)
Definition zmax (l : list Z) : res Z := match l with [] => Err ValueError | x :: r => Ok (fold_right Z.max x r) end.
Definition zmin (l : list Z) : res Z := match l with [] => Err ValueError | x :: r => Ok (fold_right Z.min x r) end.
(** soundfieldplot.py 38-48 (size_of_2d_plot), for positions of which the first two coordinates are given.  np.concatenate of
    no arrays and np.max of no numbers raise a ValueError. *)
Definition size_of_2d_plot (array_pos : list (list (Z * Z))) : res (Z * Z) :=
  let all_pos := concat array_pos in
  x1 <- zmax (map fst all_pos) ;; y1 <- zmax (map snd all_pos) ;;
  x0 <- zmin (map fst all_pos) ;; y0 <- zmin (map snd all_pos) ;;
  Ok (x1 - x0, y1 - y0).

Section Compare.
Variable u : Z.
Variable argsort : list Z -> list Z.
Variable close : Z -> Z -> bool.
(** the argument sig: a list, as the documentation says, or an array with two or three axes *)
Inductive sig_arg := SigList | Sig2 (sig : list (list R)) | Sig3 (sig : list (list (list R))).
(** soundfieldplot.py 22-35: the rest of compare_soundfields once sig has four axes, for no arrays_to_plot.  The result is the
    size of the figure and the images by row of axes.  plt.subplots gives a vector of axes if there is one column, and
    np.atleast_2d makes one row of it.  A size that is not finite raises a ValueError. *)
Definition show_fields (pos : list (list (Z * Z))) (sig : list (list (list (list R)))) (algo_labels row_labels : list string)
  : res ((R * R) * list (list sf_image)) :=
  let num_algos := zlen sig in
  let num_each_algo := match sig with [] => 0 | s :: _ => zlen s end in
  extent <- size_of_2d_plot [concat pos] ;;
  let m := Z.max (fst extent) (snd extent) in
  if m =? 0 then Err ValueError else
  let scaling := 5%R in
  let figsize := (IZR num_each_algo * (IZR (fst extent) / IZR m) * scaling, IZR num_algos * (IZR (snd extent) / IZR m) * scaling)%R in
  let '(n, k) := if (num_each_algo =? 1) && (1 <? num_algos) then (1, num_algos) else (num_algos, num_each_algo) in
  images <- mapM (fun i => mapM (fun j =>
      row <- at_idx sig i ;; s <- at_idx row j ;;
      algo <- at_idx algo_labels i ;; label <- at_idx row_labels j ;;
      vmin <- np_min (concat s) ;; vmax <- np_max (concat s) ;;
      Ok (mkImage (algo ++ ", " ++ label)%string pos s vmin vmax)) (zrange 0 k)) (zrange 0 n) ;;
  Ok (figsize, images).
(** soundfieldplot.py 7-35 (compare_soundfields) without arrays_to_plot.  A list has no shape, which sort_for_imshow asks for
    after it has sorted the positions (line 145). *)
Definition compare_soundfields (pos : list (Z * Z)) (zs : option (list Z)) (sig : sig_arg) (algo_labels row_labels : list string)
  : res ((R * R) * list (list sf_image)) :=
  match sig with
  | SigList => _ <- sort_for_imshow u argsort close pos zs pos ;; Err AttributeError
  | Sig2 sig => ps <- sort_for_imshow u argsort close pos zs sig ;; show_fields (fst ps) [snd ps] algo_labels row_labels
  | Sig3 sig => ps <- sort_for_imshow u argsort close pos zs sig ;; show_fields (fst ps) (snd ps) algo_labels row_labels
  end.
End Compare.
