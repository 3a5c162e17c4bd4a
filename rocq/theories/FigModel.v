(** Model of the functions in diagnostics/plot.py that write figures and text files: which files they write (output_plot, 48-110)
    and which curves, images and numbers these show (149-190, 221-315, 359-384).  Matplotlib itself, the look of the figures
    and the contents of the written bytes are not modelled; a figure is the list of what is handed to matplotlib. *)
Require Import Verif.PyBase Verif.PyStr Verif.PlotModel Verif.ExportModel.
From Coq Require Import Reals.
Set Implicit Arguments.
Local Open Scope string_scope.
Local Open Scope list_scope.
Local Open Scope Z_scope.

(* ------------------------------------------------------------------ files *)
(** plot.py 48-110 (output_plot) with keep_only_latest_tikz=False, its default, which is always used: the files written, as
    paths relative to [folder]; [folder] tells if there is one.  tikzplotlib also writes tables, which are left out. *)
Definition output_plot (print_method : string) (folder : bool) (name : string) : res (list string) :=
  if String.eqb print_method "show" then Ok []
  else if String.eqb print_method "tikz" then
    Ok (if folder then [(name ++ "/" ++ name ++ ".tex")%string; (name ++ "/" ++ name ++ ".pdf")%string] else [])
  else if String.eqb print_method "pdf" then Ok (if folder then [(name ++ ".pdf")%string] else [])
  else if String.eqb print_method "svg" then Ok (if folder then [(name ++ ".svg")%string] else [])
  else if String.eqb print_method "none" then Ok []
  else Err ValueError.

(** the files that a function of plot.py writes for the dictionary {name : diagnostic} that export_single_diag passes (core.py 131):
    output_plot at the end of function_of_time_plot (175), soundfield (256), plot_ir (299), matshow (315) and spectrum_plot (384);
    savenpz (212; numpy appends .npz), txt (226) and create_audio_files (334-335) use folder.joinpath, and None has no such
    method.  Only the choice of files is modelled here. *)
Definition export_paths (print_method : string) (folder : bool) (function name : string) (time_idx : Z) : res (list string) :=
  let file := (name ++ "_" ++ py_str time_idx)%string in
  if smem function ["function_of_time_plot"; "soundfield"; "plot_ir"; "matshow"; "spectrum_plot"] then output_plot print_method folder file
  else if negb folder then Err AttributeError
  else if String.eqb function "savenpz" then Ok [(file ++ ".npz")%string]
  else if String.eqb function "txt" then Ok [(file ++ ".json")%string]
  else Ok [(name ++ "_" ++ file ++ ".wav")%string].

(** core.py 130-145 (export_single_diag): the files written by one export of the diagnostic [name] at [time_idx] *)
Definition exported_files {K A} (print_method : string) (folder : bool) (name : string) (time_idx : Z) (s : settings K A) : res (list string) :=
  calls <- export_single_diag s ;;
  l <- mapM (fun c => export_paths print_method folder (fst (fst c)) name time_idx) calls ;;
  Ok (concat l).

(* ------------------------------------------------------------------ curves *)
Section Curves.
Context {V : Type}.
(** one call of ax.plot: the label, the values on both axes and if the samples are marked *)
Record curve := mkCurve { c_label : string; c_x : list Z; c_y : list V; c_marked : bool }.
(** plot.py 177-190 (plot_multiple_channels).  matplotlib raises a ValueError if the axes have different lengths. There are as
    many labels as channels, see below. *)
Definition plot_multiple_channels (time_idx : list Z) (signal : list (list V)) (labels : list string) : res (list curve) :=
  mapM (fun il => match zget signal (fst il) with
                  | None => Err ValueError
                  | Some ch => if zlen time_idx =? zlen ch then Ok (mkCurve (snd il) time_idx ch (zlen ch <? 10)%Z) else Err ValueError
                  end) (combine (zrange 0 (zlen labels)) labels).

(** a diagnostic as function_of_time_plot sees it: the processed output, its times, and plot_data *)
Record time_diag := mkTD { t_output : list (list V); t_times : list Z; t_suffixes : option (list string);
                           t_xlabel : string; t_ylabel : string; t_title : string }.
Record time_figure := mkTF { f_curves : list curve; f_legend : list string; f_xlabel : string; f_ylabel : string; f_title : string }.
(** plot.py 149-174 (function_of_time_plot) without the output of the figure.  After the loop [diag] is the last diagnostic. *)
Definition function_of_time_plot (name : string) (diags : list (string * time_diag)) : res time_figure :=
  curves <- foldM (fun curves pd =>
    let '(proc_name, diag) := pd in
    let num_channels := zlen (t_output diag) in
    labels <- match t_suffixes diag with
              | Some sufs => let labels := map (fun suf => (proc_name ++ "_" ++ suf)%string) sufs in
                             _ <- passert (zlen labels =? num_channels) ;; Ok labels
              | None => Ok (map (fun _ => proc_name) (zrange 0 num_channels))
              end ;;
    new <- plot_multiple_channels (t_times diag) (t_output diag) labels ;;
    Ok (curves ++ new)) [] diags ;;
  match rev diags with
  | [] => Err UnboundLocalError
  | (_, diag) :: _ => Ok (mkTF curves (map snd (legend_without_duplicates (map (fun c => (c, c_label c)) curves)))
                               (t_xlabel diag) (t_ylabel diag) (t_title diag ++ " - " ++ name)%string)
  end.

(** plot.py 263-299 (plot_ir) without the output of the figure.  A diagnostic is its output (get_output) and its processed
    output, both lists of sets, a set being a list of impulse responses.  The result lists the calls of axes[row, col].plot.
    plt.subplots with no columns raises a ValueError. *)
Record ir_curve := mkIR { i_row : Z; i_col : Z; i_label : string; i_y : list V }.
Definition plot_ir (diags : list (string * (list (list (list V)) * list (list (list V))))) : res (list ir_curve) :=
  num_irs <- match rev (concat (map (fun d => fst (snd d)) diags)) with [] => Err UnboundLocalError | ir_set :: _ => Ok (zlen ir_set) end ;;
  if num_irs =? 0 then Err ValueError
  else
    rows <- mapM (fun rd =>
      let '(row, (algo_name, (_, output))) := rd in
      sets <- mapM (fun ir_set =>
        mapM (fun cy => let '(col, y) := cy in
                        if col <? num_irs then Ok (mkIR row col algo_name y) else Err IndexError)
             (combine (zrange 0 (zlen ir_set)) ir_set)) output ;;
      Ok (concat sets)) (combine (zrange 0 (zlen diags)) diags) ;;
    Ok (concat rows).

(** plot.py 301-314 (matshow): the matrices with their titles, from left to right *)
Definition matshow (name : string) (outputs : list (string * list (list V))) : list (string * list (list V)) :=
  map (fun po => ((name ++ " - " ++ fst po)%string, snd po)) outputs.
End Curves.

(* ------------------------------------------------------------------ numbers *)
Section Numbers.
Local Open Scope R_scope.
(** np.mean over all entries; None stands for NaN, the mean of no entries *)
Definition np_mean (l : list R) : option R := match l with [] => None | _ => Some (rsum_ l / IZR (zlen l)) end.
(** plot.py 221-227 (txt): the dictionary that is written; [outputs] are lists of channels *)
Definition txt (outputs : list (string * list (list R))) : list (string * option R) :=
  map (fun ko => (fst ko, np_mean (concat (snd ko)))) outputs.

(** np.max and np.min of a list *)
Definition np_max (l : list R) : res R := match l with [] => Err ValueError | x :: r => Ok (fold_right Rmax x r) end.
Definition np_min (l : list R) : res R := match l with [] => Err ValueError | x :: r => Ok (fold_right Rmin x r) end.
(** the parameters of sort_for_imshow: the unit of coordinates, np.argsort and np.allclose *)
Variable u : Z.
Variable argsort : list Z -> list Z.
Variable close : Z -> Z -> bool.
(** a diagnostic as soundfield sees it: pos_mic (see PlotModel for positions), the processed output, and the number of
    plot_arrays (None if there are none) *)
Record sf_diag := mkSF { d_pos : list (Z * Z); d_z : option (list Z); d_power : list R; d_arrays : option Z }.
(** one image: its title, the positions that give its extent, the values, and the values of the darkest and brightest colour *)
Record sf_image := mkImage { m_title : string; m_pos : list (list (Z * Z)); m_values : list (list R); m_vmin : R; m_vmax : R }.
(** plot.py 231-254 (soundfield) without the output of the figure, with sf_plot (soundfieldplot.py 51-90).  plt.subplots with no
    columns raises a ValueError.  plot_ar.plot(ax) in line 251 lacks the argument sim_info of Array.plot (array.py 552), so
    that it raises a TypeError. *)
Definition soundfield (diags : list (string * sf_diag)) : res (list sf_image) :=
  maxs <- mapM (fun d => np_max (d_power (snd d))) diags ;;
  max_val <- np_max maxs ;;
  mins <- mapM (fun d => np_min (d_power (snd d))) diags ;;
  min_val <- np_min mins ;;
  mapM (fun d =>
    ps <- sort_for_imshow u argsort close (d_pos (snd d)) (d_z (snd d)) (d_power (snd d)) ;;
    match d_arrays (snd d) with
    | Some n => if (0 <? n)%Z then Err TypeError else Ok (mkImage (fst d) (fst ps) (snd ps) min_val max_val)
    | None => Ok (mkImage (fst d) (fst ps) (snd ps) min_val max_val)
    end) diags.
End Numbers.
