(** Model of the export settings of diagnostics (diagnostics/core.py 255-306), of Logger.add_diagnostic (79-81) and
    export_single_diag (117-145), of get_processed_output with preprocessing functions (332-339, 369-373, 404-408), and
    of the functions in diagnostics/preprocessing.py over the real numbers. *)
Require Import Verif.PyBase.
From Coq Require Import Reals.
Set Implicit Arguments.
Local Open Scope string_scope.
Local Open Scope list_scope.
Local Open Scope Z_scope.

Section Settings.
(** keyword arguments (a dict) and the outputs that preprocessing functions work on *)
Variables K A : Type.
Variable no_kwargs : K.
(** a callable; functools.partial objects and instances with __call__ have no __name__ *)
Record callable := mkCall { has_name : bool; call : A -> res A }.

(** the argument export_func: a string or a list of strings *)
Inductive funcs_arg := FStr (s : string) | FList (l : list string).
(** the argument export_kwargs *)
Inductive kwargs_arg := KNone | KDict (d : K) | KList (l : list K).
(** the argument preprocess: None, a callable, or a list whose entries are callables or lists of callables *)
Inductive prep_entry := EFun (f : callable) | EList (l : list callable).
Inductive prep_arg := PNone | PFun (f : callable) | PList (l : list prep_entry).

(** what a diagnostic stores: export_function, export_kwargs, preprocess *)
Record settings := mkSet { s_funcs : list string; s_kwargs : list K; s_prep : list (list callable) }.

(** core.py 286-303 (Diagnostic.__init__); [table] is the class attribute export_functions, its values are the names of
    the functions in diagnostics/plot.py *)
Definition export_settings (table : dict string) (fa : funcs_arg) (ka : kwargs_arg) (pa : prep_arg) : res settings :=
  let export_func := match fa with FStr s => [s] | FList l => l end in
  funcs <- mapM (fun choice => dgetE table choice) export_func ;;
  let export_kwargs := match ka with KNone => [no_kwargs] | KDict d => [d] | KList l => l end in
  _ <- passert (zlen export_kwargs =? zlen funcs) ;;
  let preprocess := match pa with
                    | PNone => map (fun _ => EList []) funcs
                    | PFun f => [EFun f]
                    | PList l => l
                    end in
  let prep := map (fun pp => match pp with EFun f => [f] | EList l => l end) preprocess in
  _ <- passert (zlen prep =? zlen funcs) ;;
  Ok (mkSet funcs export_kwargs prep).

(** core.py 332-339: the preprocessing functions are applied to the output one after the other; 369-373 and 404-408 do the
    same to the values and keep the time indices *)
Definition processed (prep : list callable) (output : A) : res A := foldM (fun output pp => call pp output) output prep.
Definition processed_timed {T} (prep : list callable) (output : A) (times : T) : res (A * T) := o <- processed prep output ;; Ok (o, times).

(** core.py 117-127 (verify_same_export_settings) for the single diagnostic that export_single_diag passes: all comparisons
    are of an object with itself; only the access to __name__ can fail *)
Definition verify_same_export_settings (s : settings) : res unit :=
  if forallb (fun prep => forallb has_name prep) (s_prep s) then Ok tt else Err AttributeError.

(** core.py 130-145 (export_single_diag): the calls of export functions, each with its keyword arguments and
    preprocessing functions; zip stops with the shortest list *)
Definition export_single_diag (s : settings) : res (list (string * K * list callable)) :=
  _ <- verify_same_export_settings s ;;
  Ok (combine (combine (s_funcs s) (s_kwargs s)) (s_prep s)).
End Settings.
Arguments FStr s.
Arguments FList l.
Arguments KNone {K}.
Arguments PNone {A}.

(** core.py 79-81 (Logger.add_diagnostic) *)
Definition add_diagnostic {D} (diagnostics : dict D) (name : string) (diagnostic : D) : res (dict D) :=
  _ <- passert (negb (dmem diagnostics name)) ;; Ok (dset diagnostics name diagnostic).

(** core.py 342-348, 377-380, 412-417, diagnostics.py 312-315, diagnosticscollection.py 88-92: export_functions of the classes *)
Inductive diag_class := CSignal | CState | CInstant | CSoundfield | CSummary.
Definition export_functions (c : diag_class) : dict string :=
  match c with
  | CSignal => [("plot", "function_of_time_plot"); ("npz", "savenpz"); ("text", "txt"); ("wav", "create_audio_files"); ("spectrum", "spectrum_plot")]
  | CState => [("plot", "function_of_time_plot"); ("npz", "savenpz")]
  | CInstant => [("plot", "plot_ir"); ("matshow", "matshow"); ("npz", "savenpz"); ("text", "txt")]
  | CSoundfield => [("image", "soundfield"); ("npz", "savenpz")]
  | CSummary => [("npz", "savenpz"); ("text", "txt"); ("spectrum", "spectrum_plot")]
  end.
(** the value of get_processed_output: a tuple of values and times (core.py 373, 408), or an array (339) *)
Inductive out_kind := OTuple | OArray.
Definition output_kind (c : diag_class) : out_kind := match c with CSignal | CState => OTuple | _ => OArray end.
(** the first use of that value in the functions of plot.py: function_of_time_plot (155) unpacks a tuple; savenpz (208),
    txt (223) and create_audio_files (320) take the first entry of a tuple; spectrum_plot (368) asks for output.shape;
    soundfield (241), plot_ir (285) and matshow (310) hand it to numpy or matplotlib, which is only modelled for arrays *)
Definition first_use (function : string) (k : out_kind) : res unit :=
  match k with
  | OTuple => if smem function ["function_of_time_plot"; "savenpz"; "txt"; "create_audio_files"] then Ok tt
              else if String.eqb function "spectrum_plot" then Err AttributeError else Err TypeError
  | OArray => if String.eqb function "function_of_time_plot" then Err ValueError else Ok tt
  end.

Section Numbers.
Local Open Scope R_scope.
Definition rsum_ (l : list R) : R := fold_right Rplus 0 l.
(** preprocessing.py 10-14 (db_power, db_amplitude) for positive numbers *)
Definition db_power (x : R) : R := 10 * (ln x / ln 10).
Definition db_amplitude (x : R) : R := 20 * (ln x / ln 10).
(** preprocessing.py 41-44 (clip): np.clip is minimum(maximum(x, low), high) *)
Definition clip (low high : R) (signal : list (list R)) : list (list R) := map (map (fun x => Rmin (Rmax x low) high)) signal.
(** scipy.signal.oaconvolve(x, h, mode="full") of two sequences that are not empty: the convolution sum *)
Definition convolve_full (x h : list R) : list R :=
  map (fun n => rsum_ (map (fun k => match zget h k, zget x (n - k)%Z with Some a, Some b => a * b | _, _ => 0 end) (zrange 0 (zlen h))))
      (zrange 0 (zlen x + zlen h - 1)%Z).
(** preprocessing.py 47-51 (smooth).  A negative length is refused by np.ones; with an empty filter or signal oaconvolve
    returns an array with one axis, on which the slice of line 50 fails *)
Definition smooth (smooth_len : Z) (signal : list (list R)) : res (list (list R)) :=
  if (smooth_len <? 0)%Z then Err ValueError
  else if (smooth_len =? 0)%Z || forallb (fun ch => (zlen ch =? 0)%Z) signal then Err IndexError
  else
    let ir := map (fun x => x / IZR smooth_len) (zrep smooth_len 1) in
    Ok (map (fun ch => pyslice (convolve_full ch ir) 0 (zlen ch)) signal).
End Numbers.
