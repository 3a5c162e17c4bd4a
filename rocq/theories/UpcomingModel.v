(** Model of the attribute upcoming_export of the Logger (diagnostics/core.py 52-107, 148-159).  The diagnostics, save_data and dispatch are those of LoggerModel. *)
Require Import Verif.PyBase Verif.LoggerModel Verif.ExportModel.
Set Implicit Arguments.
Local Open Scope Z_scope.

Section Upcoming.
Variables (F PS D Out : Type).
Variable dsave : D -> option PS -> dict (list F) -> Z * Z -> res D.
Variable dout : D -> Z -> res Out.
Notation diag := (diag D).
(** core.py 53-57; the files that were written so far are kept as well *)
Record logger := mkLogger { lg_diags : dict diag; lg_out : list (string * Z * Out); lg_upcoming : ext }.
(** core.py 53-57 *)
Definition logger_init : logger := mkLogger [] [] (Fin 0).
(** the smaller one of two times *)
Definition earlier (a b : ext) : ext := match a, b with Inf, _ => b | _, Inf => a | Fin x, Fin y => Fin (Z.min x y) end.
(** np.amin, which raises a ValueError for an empty list *)
Definition amin (l : list ext) : res ext := match l with [] => Err ValueError | x :: r => Ok (fold_left earlier r x) end.
(** core.py 100-104 *)
Definition update_next_export (l : logger) : logger :=
  mkLogger (lg_diags l) (lg_out l) (match amin (map (fun kd => ix_next (d_ix (snd kd))) (lg_diags l)) with Ok e => e | Err _ => Inf end).
(** core.py 106-107 *)
Definition next_export (l : logger) : ext := lg_upcoming l.
(** core.py 76-77 *)
Definition logger_prepare (l : logger) : logger := update_next_export l.
(** core.py 73-74 and 79-81 *)
Definition logger_add (l : logger) (name : string) (d : diag) : res logger := dg <- add_diagnostic (lg_diags l) name d ;; Ok (mkLogger dg (lg_out l) (lg_upcoming l)).
(** core.py 83-97 *)
Definition logger_save (l : logger) (proc : option PS) (sigs : dict (Z * list F)) (idx global_idx : Z) (last_block : bool) : res logger :=
  dg <- save_data dsave proc sigs idx global_idx last_block (lg_diags l) ;; Ok (mkLogger dg (lg_out l) (lg_upcoming l)).
(** core.py 148-159 *)
Definition logger_dispatch (plot_output : string) (l : logger) : res logger :=
  a <- dispatch dout plot_output (lg_diags l, lg_out l) ;;
  let l' := mkLogger (fst a) (snd a) (lg_upcoming l) in
  Ok (if negb (String.eqb plot_output "none") then update_next_export l' else l').
End Upcoming.
