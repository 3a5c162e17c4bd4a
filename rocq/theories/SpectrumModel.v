(** Model of plot.spectrum_plot (src/aspsim/diagnostics/plot.py 359-384): the curves that are drawn.  As in FigModel a figure is the
    list of what is handed to matplotlib; its look is left out, the written files are in FigModel.export_paths. *)
Require Import Verif.PyBase Verif.PlotModel Verif.ExportModel.
Set Implicit Arguments.

Section Spectrum.
Variable V : Type.
(** what get_processed_output gives: a number, a vector or a matrix (given by its rows; [cols] is the number of columns, which also
    a matrix without rows has), or, for signal and state diagnostics, values and their times (core.py 369-373, 404-408), a tuple *)
Inductive output := Number (x : V) | Vector (l : list V) | Matrix (cols : Z) (rows : list (list V)) | Timed (o : output) (times : list Z).
(** one curve of the axes (plot.py 366-370): the label and the values over 0, 1, ... *)
Record line := mkLine { l_label : string; l_x : list Z; l_y : list V }.
(** plot.py 366-370, ax.plot(y, label=...): the values of a vector over their indices; the columns of a matrix, each as a curve with the same label.
    The entries of a column that a row does not have are left out (there are none: all rows have the same length) *)
Definition column (rows : list (list V)) (k : Z) : list V := flat_map (fun r => match zget r k with Some x => [x] | None => [] end) rows.
Definition ax_plot (label : string) (o : output) : list line :=
  match o with
  | Number x => [mkLine label [0] [x]]
  | Vector l => [mkLine label (zrange 0 (zlen l)) l]
  | Matrix cols rows => map (fun k => mkLine label (zrange 0 (zlen rows)) (column rows k)) (zrange 0 cols)
  | Timed _ _ => []
  end.
(** plot.py 364, output.shape[0]: a tuple has no shape, and the shape of a number has no entries *)
Definition num_channels (o : output) : res Z :=
  match o with
  | Number _ => Err IndexError
  | Vector l => Ok (zlen l)
  | Matrix _ rows => Ok (zlen rows)
  | Timed _ _ => Err AttributeError
  end.
(** the figure of plot.py 359-384: the curves, and the entries of the legend *)
Record spectrum_figure := mkSF { sf_lines : list line; sf_legend : list string }.
(** plot.py 359-384: diags gives for every name how get_processed_output ends, with the preprocessing of this export *)
Definition spectrum_plot (diags : list (string * res output)) : res spectrum_figure :=
  lines <- foldM (fun lines d =>
    o <- snd d ;;
    _ <- num_channels o ;;
    Ok (lines ++ ax_plot (fst d) o)%list) [] diags ;;
  Ok (mkSF lines (map snd (legend_without_duplicates (map (fun l => (l, l_label l)) lines)))).
(** diagnosticscollection.py 153-157, SignalPowerSpectrum.get_output with core.py 332-338: the spectra of the channels (a matrix, from
    spsig.welch), their mean over the channels, and then the preprocessing functions one after the other *)
Definition spectrum_output (mean_of : list (list V) -> list V) (spectra : list (list V)) (prep : list (callable output)) : res output :=
  processed prep (Vector (mean_of spectra)).
End Spectrum.
