(** Model of the way in which the constructors of diagnostics call each other (src/aspsim/diagnostics/core.py, diagnostics.py,
    diagnosticscollection.py, diagnosticsummary.py): which parameter receives which argument, and which calls Python refuses.
    What the constructors do besides is left out (the counters are modelled in DiagCtorModel, the recording in DiagModel). *)
Require Import Verif.PyBase.
Set Implicit Arguments.
Local Open Scope string_scope.

Section Calls.
(** any other object that is given as argument *)
Variable X : Type.
(** the values that occur as arguments: None, True and False, strings, slice(None), any other object, and the counters made in
    the constructors: the counter of the whole simulation (core.py 360), the one made from a frequency (395), the one of a
    single range of samples (diagnosticscollection.py 111, diagnosticsummary.py 67), and the list of its end (110, 66) *)
Inductive val := VNone | VBool (b : bool) | VStr (s : string) | VAll | VObj (x : X) | VWhole | VFreq (v : val) | VRange (v : val) | VEnds (v : val).
(** a call passes positional and keyword arguments *)
Definition kwargs := list (string * val).
(** the parameters of a function (without self): positional ones with their defaults, *args, keyword-only ones, **kwargs *)
Record signature := mkSig { s_pos : list (string * option val); s_star : bool; s_only : list (string * option val); s_starkw : bool }.
(** Python's binding of arguments to parameters; every failure is a TypeError.  The result: the value of each parameter, the
    contents of *args and of **kwargs *)
Definition bind_call (s : signature) (args : list val) (kw : kwargs) : res (kwargs * list val * kwargs) :=
  let names := map fst (s_pos s ++ s_only s) in
  let assigned := combine (map fst (s_pos s)) args in
  let rest := skipn (length (s_pos s)) args in
  let extra := filter (fun k => negb (smem (fst k) names)) kw in
  if negb (s_star s) && negb (Nat.eqb (length rest) 0) then Err TypeError          (* too many positional arguments *)
  else if existsb (fun k => smem (fst k) (map fst assigned)) kw then Err TypeError (* multiple values for an argument *)
  else if negb (s_starkw s) && negb (Nat.eqb (length extra) 0) then Err TypeError  (* unexpected keyword argument *)
  else
    values <- mapM (fun p => match dget assigned (fst p), dget kw (fst p), snd p with
                             | Some v, _, _ | None, Some v, _ | None, None, Some v => Ok (fst p, v)
                             | None, None, None => Err TypeError                   (* missing argument *)
                             end) (s_pos s ++ s_only s) ;;
    Ok (values, rest, extra).
(** f(explicit=..., **kw): a keyword given twice is refused *)
Definition with_keywords (explicit kw : kwargs) : res kwargs :=
  if existsb (fun k => smem (fst k) (map fst explicit)) kw then Err TypeError else Ok (explicit ++ kw)%list.
(** the value of a parameter *)
Definition param (values : kwargs) (n : string) : val := match dget values n with Some v => v | None => VNone end.

(** core.py 257-266: Diagnostic.__init__; the model returns what the parameters receive *)
Definition diagnostic_sig : signature :=
  mkSig [("sim_info", None); ("export_at", None); ("save_at", None); ("export_func", None); ("keep_only_last_export", None); ("export_kwargs", None); ("preprocess", None)] false [] false.
Definition diagnostic (args : list val) (kw : kwargs) : res kwargs := b <- bind_call diagnostic_sig args kw ;; Ok (fst (fst b)).
(** core.py 349-363: SignalDiagnostic.__init__ *)
Definition signal_sig : signature :=
  mkSig [("sim_info", None); ("export_at", Some VNone); ("save_at", Some VNone); ("export_func", Some (VStr "plot")); ("keep_only_last_export", Some VNone); ("export_kwargs", Some VNone); ("preprocess", Some VNone)] false [] false.
Definition signal_diagnostic (args : list val) (kw : kwargs) : res kwargs :=
  b <- bind_call signal_sig args kw ;;
  let p := param (fst (fst b)) in
  let save_at := match p "save_at" with VNone => VWhole | v => v end in
  let keep := match p "keep_only_last_export" with VNone => VBool false | v => v end in
  diagnostic [p "sim_info"; p "export_at"; save_at; p "export_func"; keep; p "export_kwargs"; p "preprocess"] [].
(** core.py 381-399: StateDiagnostic.__init__; IntervalCounter.from_frequency is modelled in DiagCtorModel *)
Definition state_sig : signature :=
  mkSig [("sim_info", None); ("export_at", Some VNone); ("save_frequency", Some VNone); ("export_func", Some (VStr "plot")); ("keep_only_last_export", Some (VBool false)); ("export_kwargs", Some VNone); ("preprocess", Some VNone)] false [] false.
Definition state_diagnostic (args : list val) (kw : kwargs) : res kwargs :=
  b <- bind_call state_sig args kw ;;
  let p := param (fst (fst b)) in
  match p "save_frequency" with
  | VNone => Err NotImplementedError
  | f => diagnostic [p "sim_info"; p "export_at"; VFreq f; p "export_func"; p "keep_only_last_export"; p "export_kwargs"; p "preprocess"] []
  end.
(** diagnostics.py 82-88: RecordSignal.__init__ (num_channels is 1 by default; it is not passed on, so its value does not matter here) *)
Definition record_signal (args : list val) (kw : kwargs) : res kwargs :=
  b <- bind_call (mkSig [("sig_name", None)] true [("num_channels", Some VNone); ("channel_idx", Some VNone)] true) args kw ;;
  signal_diagnostic (snd (fst b)) (snd b).
(** diagnostics.py 124-130: RecordState.__init__ *)
Definition record_state (args : list val) (kw : kwargs) : res kwargs :=
  b <- bind_call (mkSig [("state_name", None); ("state_dim", None)] true [("label_suffix_channel", Some VNone)] true) args kw ;;
  state_diagnostic (snd (fst b)) (snd b).
(** diagnostics.py 158-163: SignalPower.__init__ *)
Definition signal_power (args : list val) (kw : kwargs) : res kwargs :=
  b <- bind_call (mkSig [("sig_name", None); ("sim_info", None); ("export_at", Some VNone); ("sig_channels", Some VAll)] false [] true) args kw ;;
  let p := param (fst (fst b)) in
  signal_diagnostic [p "sim_info"; p "export_at"] (snd b).
(** diagnostics.py 177-186: SignalPowerRatio.__init__ *)
Definition signal_power_ratio (args : list val) (kw : kwargs) : res kwargs :=
  b <- bind_call (mkSig [("numerator_name", None); ("denom_name", None); ("sim_info", None); ("export_at", Some VNone); ("numerator_channels", Some VAll); ("denom_channels", Some VAll)] false [] true) args kw ;;
  let p := param (fst (fst b)) in
  signal_diagnostic [p "sim_info"; p "export_at"] (snd b).

(** isinstance(v, diacore.IntervalCounter), and v[0], v[1] and their difference: what indexing and subtraction of the object raise, if anything *)
Variable is_counter : val -> bool.
Variable index : val -> res unit.
(** diagnosticscollection.py 93-113: SummaryDiagnostic.__init__ *)
Definition summary_diagnostic (args : list val) (kw : kwargs) : res kwargs :=
  b <- bind_call (mkSig [("sim_info", None); ("save_at", None); ("export_func", Some (VStr "text")); ("keep_only_last_export", Some (VBool false)); ("export_kwargs", Some VNone); ("preprocess", Some VNone)] false [] false) args kw ;;
  let p := param (fst (fst b)) in
  if is_counter (p "save_at") then Err NotImplementedError
  else _ <- index (p "save_at") ;;
       diagnostic [p "sim_info"; VEnds (p "save_at"); VRange (p "save_at"); p "export_func"; p "keep_only_last_export"; p "export_kwargs"; p "preprocess"] [].
(** diagnosticscollection.py 117-132: SignalPowerSpectrum.__init__ *)
Definition power_spectrum (args : list val) (kw : kwargs) : res kwargs :=
  b <- bind_call (mkSig [("sig_name", None); ("sim_info", None); ("save_range", None); ("num_channels", None); ("nperseg", None); ("sig_channels", Some VAll)] false [] true) args kw ;;
  let p := param (fst (fst b)) in
  _ <- index (p "save_range") ;;
  k <- with_keywords [("save_at", p "save_range"); ("export_func", VStr "spectrum")] (snd b) ;;
  summary_diagnostic [p "sim_info"] k.
(** diagnosticscollection.py 162-174: SignalSummary.__init__ *)
Definition signal_summary (args : list val) (kw : kwargs) : res kwargs :=
  b <- bind_call (mkSig [("sig_name", None); ("sim_info", None); ("save_range", None); ("summary_func", Some VNone)] false [] true) args kw ;;
  let p := param (fst (fst b)) in
  _ <- index (p "save_range") ;;
  k <- with_keywords [("save_at", p "save_range"); ("export_func", VStr "text")] (snd b) ;;
  summary_diagnostic [p "sim_info"] k.

(** diagnosticsummary.py 48-69: the other SummaryDiagnostic.__init__; it passes one argument more than core.py 257-266 takes *)
Definition old_summary_diagnostic (args : list val) (kw : kwargs) : res kwargs :=
  b <- bind_call (mkSig [("sim_info", None); ("block_size", None); ("save_at", None); ("export_func", Some (VStr "text")); ("keep_only_last_export", Some (VBool false)); ("export_kwargs", Some VNone); ("preprocess", Some VNone)] false [] false) args kw ;;
  let p := param (fst (fst b)) in
  if is_counter (p "save_at") then Err NotImplementedError
  else _ <- index (p "save_at") ;;
       diagnostic [p "sim_info"; p "block_size"; VEnds (p "save_at"); VRange (p "save_at"); p "export_func"; p "keep_only_last_export"; p "export_kwargs"; p "preprocess"] [].
(** diagnosticsummary.py 77-89: SignalPowerRatioSummary.__init__ *)
Definition old_ratio_summary (args : list val) (kw : kwargs) : res kwargs :=
  b <- bind_call (mkSig [("numerator_name", None); ("denom_name", None); ("sim_info", None); ("block_size", None); ("save_range", None); ("numerator_channels", Some VAll); ("denom_channels", Some VAll)] false [] true) args kw ;;
  let p := param (fst (fst b)) in
  _ <- index (p "save_range") ;;
  old_summary_diagnostic [p "sim_info"; p "block_size"; p "save_range"] (snd b).
(** diagnosticsummary.py 111-124: SignalPowerSummary.__init__ *)
Definition old_power_summary (args : list val) (kw : kwargs) : res kwargs :=
  b <- bind_call (mkSig [("sig_name", None); ("sim_info", None); ("block_size", None); ("save_range", None); ("sig_channels", Some VAll)] false [] true) args kw ;;
  let p := param (fst (fst b)) in
  _ <- index (p "save_range") ;;
  old_summary_diagnostic [p "sim_info"; p "block_size"; p "save_range"] (snd b).
(** diagnosticsummary.py 143-157: SignalPowerSpectrum.__init__ *)
Definition old_power_spectrum (args : list val) (kw : kwargs) : res kwargs :=
  b <- bind_call (mkSig [("sig_name", None); ("sim_info", None); ("block_size", None); ("save_range", None); ("num_channels", None); ("sig_channels", Some VAll)] false [] true) args kw ;;
  let p := param (fst (fst b)) in
  _ <- index (p "save_range") ;;
  k <- with_keywords [("export_func", VStr "spectrum")] (snd b) ;;
  old_summary_diagnostic [p "sim_info"; p "block_size"; p "save_range"] k.
End Calls.
Arguments VNone {X}. Arguments VBool {X}. Arguments VStr {X}. Arguments VAll {X}. Arguments VWhole {X}.
