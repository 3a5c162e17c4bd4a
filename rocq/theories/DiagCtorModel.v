(** Model of the constructors in src/aspsim/diagnostics/core.py and src/aspsim/diagnostics/diagnostics.py:
    which save intervals and export indices a diagnostic gets from its arguments.
    (Export functions, keyword arguments and preprocessing lists are left out.) *)
Require Import Verif.PyBase Verif.ConfigModel Verif.LoggerModel.
Set Implicit Arguments.

(** an argument that may be None, a number or a list of indices *)
Inductive arg := ANone | AInt (n : Z) | AList (l : list Z).

Section Ctor.
Variable D : Type.

(** core.py 274-282: None stands for sim_info.export_frequency; a number for a frequency *)
Definition export_counter (i : info) (export_at : arg) : res ixc :=
  match export_at with
  | ANone => ixc_of_frequency (export_frequency i) (tot_samples i)
  | AInt f => ixc_of_frequency f (tot_samples i)
  | AList l => Ok (ixc_of_list l)
  end.
(** core.py 246-306: Diagnostic.__init__ *)
Definition diagnostic_init (i : info) (export_at : arg) (save_at : ivc) (pl : D) : res (diag D) :=
  x <- export_counter i export_at ;; Ok (mkDiag save_at x pl).
(** core.py 352-363: SignalDiagnostic.__init__ *)
Definition signal_diag_init (i : info) (export_at : arg) (save_at : option ivc) (pl : D) : res (diag D) :=
  iv <- (match save_at with None => ivc_of_intervals [(0, tot_samples i)] | Some iv => Ok iv end) ;;
  diagnostic_init i export_at iv pl.
(** core.py 381-400: StateDiagnostic.__init__; [pl] receives save_at.num_values (diagnostics.py 127-128),
    where np.full raises if it is negative.  A frequency that is a list makes max_value / frequency raise. *)
Definition state_diag_init (i : info) (export_at save_frequency : arg) (pl : Z -> D) : res (diag D) :=
  match save_frequency with
  | ANone => Err NotImplementedError
  | AList _ => Err TypeError
  | AInt f =>
    iv <- ivc_from_frequency f (tot_samples i) false ;;
    d <- diagnostic_init i export_at iv (pl (iv_num iv)) ;;
    if iv_num iv <? 0 then Err ValueError else Ok d
  end.
(** diagnostics.py 124-133 RecordState, 240-251 StateComparison, 271-282 StateSummary: arguments passed on *)
Definition record_state_init (i : info) (export_at save_frequency : arg) (pl : Z -> D) : res (diag D) :=
  state_diag_init i export_at save_frequency pl.
(** diagnostics.py 209-214 StatePower: the two arguments are passed on in the other order *)
Definition state_power_init (i : info) (export_at save_frequency : arg) (pl : Z -> D) : res (diag D) :=
  state_diag_init i save_frequency export_at pl.
(** core.py 418-441: InstantDiagnostic.__init__ *)
Definition instant_diag_init (i : info) (save_at : arg) (pl : D) : res (diag D) :=
  match save_at with
  | ANone =>
    iv <- ivc_from_frequency (export_frequency i) (tot_samples i) false ;;
    diagnostic_init i (AInt (export_frequency i)) iv pl
  | AList l => iv <- ivc_of_indices l ;; diagnostic_init i (AList l) iv pl
  | AInt f => iv <- ivc_from_frequency f (tot_samples i) false ;; diagnostic_init i (AInt f) iv pl
  end.
(** diagnostics.py 335-339 SoundfieldPower and diagnosticscollection.py 107-113 SummaryDiagnostic: one save
    interval, exported at its end *)
Definition soundfield_init (i : info) (use : Z * Z) (pl : D) : res (diag D) :=
  iv <- ivc_of_intervals [use] ;; diagnostic_init i (AList [snd use]) iv pl.
End Ctor.
