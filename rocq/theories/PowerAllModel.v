(** Model of diagnostics.power_of_all_signals (src/aspsim/diagnostics/diagnostics.py 298-305), which adds a power diagnostic for every
    signal of a processor.  The constructor of SignalPower is the one of CallModel: a diagnostic is represented by the values that the
    parameters of Diagnostic.__init__ receive, and by the name of its signal. *)
Require Import Verif.PyBase Verif.CallModel.
Set Implicit Arguments.
Local Open Scope string_scope.

Section PowerAll.
Variable X : Type.
(** an added diagnostic (diagnostics.py 303-305): the name of its signal, and what the parameters of Diagnostic.__init__ receive *)
Definition added := (string * kwargs X)%type.
(** processor.py 11-24: what the function uses of a processor: the names of its signals (sig.keys()), sim_info, block_size, and the
    attribute diag; AudioProcessor.__init__ sets no such attribute, so it is there only if something else sets it *)
Record processor := mkProcessor { p_signals : list string; p_info : val X; p_block_size : val X; p_diag : option (list (string * added)) }.
(** processor.py 11-24: AudioProcessor.__init__; the signals are those of simulator.py 352-361 *)
Definition new_processor (signals : list string) (info block_size : val X) : processor := mkProcessor signals info block_size None.
(** core.py 79-81: DiagnosticHandler.add_diagnostic *)
Definition add_diagnostic (diagnostics : list (string * added)) (name : string) (d : added) : res (list (string * added)) :=
  if smem name (dkeys diagnostics) then Err AssertionError else Ok (diagnostics ++ [(name, d)])%list.
(** the list [[pp.smooth(processor.sim_info.output_smoothing), pp.db_power]] (diagnostics.py 305): as an object; reading the setting
    or building the window may fail (preprocessing.py 47-51) *)
Variable preprocess : val X -> res (val X).
(** diagnostics.py 302-305, the loop: the arguments in the order in which Python evaluates them; the result: the diagnostics that
    the handler has afterwards, and how the function ends.  The third positional argument of SignalPower is the block size *)
Fixpoint power_loop (signals : list string) (p : processor) (diag : option (list (string * added))) : option (list (string * added)) * res unit :=
  match signals with
  | [] => (diag, Ok tt)
  | name :: rest =>
    match diag with
    | None => (diag, Err AttributeError)                           (* processor.diag *)
    | Some ds =>
      match (f <- preprocess (p_info p) ;;
             d <- signal_power [VStr name; p_info p; p_block_size p] [("preprocess", f)] ;;
             add_diagnostic ds ("power_" ++ name) (name, d)) with
      | Ok ds' => power_loop rest p (Some ds')
      | Err e => (diag, Err e)
      end
    end
  end.
(** diagnostics.py 298-305: power_of_all_signals *)
Definition power_of_all_signals (p : processor) : option (list (string * added)) * res unit := power_loop (p_signals p) p (p_diag p).
End PowerAll.
