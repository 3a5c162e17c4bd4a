(** Model of the scheduling part of src/aspsim/diagnostics/core.py:
    IntervalCounter, IndexCounter, Logger.save_data, Logger.dispatch. *)
Require Import Verif.PyBase.
Set Implicit Arguments.

(* ---------------------------------------------------------------- IntervalCounter *)
(** core.py 162-216.  [iv_rest] is the iterator, not yet consumed. *)
Record ivc := mkIvc {
  iv_rest : list (Z * Z);
  iv_start : ext;
  iv_end : ext;
  iv_saved : Z;              (* saved_until *)
  iv_num : Z                 (* num_values *)
}.

(** next(self.intervals, (np.inf, np.inf)) *)
Definition iv_next (l : list (Z * Z)) : list (Z * Z) * ext * ext :=
  match l with
  | [] => ([], Inf, Inf)
  | (s, e) :: r => (r, Fin s, Fin e)
  end.

Definition ivc_make (l : list (Z * Z)) (num : Z) : ivc :=
  let '(r, s, e) := iv_next l in mkIvc r s e 0 num.

(** core.py 172-185: constructor from a list of intervals (intervals[0] raises on an empty list). *)
Definition ivc_of_intervals (l : list (Z * Z)) : res ivc :=
  match l with
  | [] => Err IndexError
  | _ => Ok (ivc_make l (fold_left Z.add (map (fun iv => snd iv - fst iv) l) 0))
  end.

(** core.py 175-177: constructor from a list of indices. *)
Definition ivc_of_indices (l : list Z) : res ivc :=
  match l with
  | [] => Err IndexError
  | _ => Ok (ivc_make (map (fun idx => (idx - 1, idx)) l) (zlen l))
  end.

(** range(a, b, s) for s < 0 *)
Definition zrange_down (a b s : Z) : list Z := map Z.opp (zrange_step (- a) (- b) (- s)).
(** core.py 188-195: from_frequency.  [combine] is Python's zip. *)
Definition ivc_from_frequency (frequency max_value : Z) (include_zero : bool) : res ivc :=
  if frequency =? 0 then Err ZeroDivisionError
  else
    let num_values := - (- max_value / frequency) in   (* int(np.ceil(max/freq)) *)
    let start_value := if include_zero then 0 else frequency in
    let range := if frequency <? 0 then zrange_down else zrange_step in
    Ok (ivc_make (combine (range (start_value - 1) max_value frequency)
                          (range start_value (max_value + 1) frequency)) num_values).

(** core.py 210-215: progress. *)
Definition ivc_progress (c : ivc) (until : Z) : res ivc :=
  _ <- passert (match iv_end c with Fin e => until <=? e | Inf => true end) ;;
  if (match iv_end c with Fin e => until =? e | Inf => false end) then
    let '(r, s, e) := iv_next (iv_rest c) in Ok (mkIvc r s e until (iv_num c))
  else Ok (mkIvc (iv_rest c) (Fin until) (iv_end c) until (iv_num c)).

(* ---------------------------------------------------------------- IndexCounter *)
(** core.py 220-242 *)
Record ixc := mkIxc { ix_next : ext; ix_rest : list Z }.
Definition ixc_make (l : list Z) : ixc :=
  match l with [] => mkIxc Inf [] | x :: r => mkIxc (Fin x) r end.
(** core.py 227-236: an iterable of indices, or a frequency. *)
Definition ixc_of_list (l : list Z) : ixc := ixc_make l.
Definition ixc_of_frequency (f tot : Z) : res ixc :=
  if f =? 0 then Err ValueError                 (* range() arg 3 must not be zero *)
  else if f <? 0 then Ok (ixc_make (zrange_down f (tot + 1) f))
  else Ok (ixc_make (zrange_step f (tot + 1) f)).
(** core.py 238-239 *)
Definition ixc_progress (c : ixc) : ixc := ixc_make (ix_rest c).

(* ---------------------------------------------------------------- Logger *)
(** The diagnostic objects are given by their methods (Python dynamic dispatch):
    [D] the state of a diagnostic, [dsave d proc view (a,b)] its method save, where [view] maps every
    name to sig[name][..., chunk_interval[0]:chunk_interval[1]] and (a,b) is the global interval, and
    [dout d e] what an export at time index e writes. *)
Section Logger.
Variables (F PS D Out : Type).
Variable dsave : D -> option PS -> dict (list F) -> Z * Z -> res D.
Variable dout : D -> Z -> res Out.

(** core.py 255-318: the scheduling attributes of a Diagnostic. *)
Record diag := mkDiag { d_iv : ivc; d_ix : ixc; d_pl : D }.

(** sig[name][..., a:b] for every name *)
Definition view (sigs : dict (Z * list F)) (a b : Z) : dict (list F) :=
  map (fun kv => (fst kv, pyslice (snd (snd kv)) a b)) sigs.

(** core.py 84-97: the loop body of save_data for one diagnostic. *)
Definition save_one (proc : option PS) (sigs : dict (Z * list F)) (idx global_idx : Z)
    (last_block : bool) (d : diag) : res diag :=
  match iv_start (d_iv d), iv_end (d_iv d) with
  | Fin start, Fin end_ =>
    if end_ <=? global_idx then
      let end_lcl := idx - (global_idx - end_) - 1 in
      let start_lcl := end_lcl - (end_ - start) in
      pl <- dsave (d_pl d) proc (view sigs start_lcl end_lcl) (start, end_) ;;
      iv <- ivc_progress (d_iv d) end_ ;;
      Ok (mkDiag iv (d_ix d) pl)
    else if last_block && (start <? global_idx) then
      let end_lcl := idx - 1 in
      let start_lcl := idx - (global_idx - start) - 1 in
      pl <- dsave (d_pl d) proc (view sigs start_lcl end_lcl) (start, global_idx) ;;
      iv <- ivc_progress (d_iv d) global_idx ;;
      Ok (mkDiag iv (d_ix d) pl)
    else Ok d
  | _, _ => Ok d            (* (inf, inf): neither comparison holds *)
  end.

(** core.py 83-97: save_data over all diagnostics, in insertion order. *)
Definition save_data (proc : option PS) (sigs : dict (Z * list F)) (idx global_idx : Z)
    (last_block : bool) (diags : dict diag) : res (dict diag) :=
  mapM (fun kd => d <- save_one proc sigs idx global_idx last_block (snd kd) ;; Ok (fst kd, d)) diags.

(** core.py 109-115: export_this_idx. *)
Definition export_this_idx (diags : dict diag) : list string :=
  map fst (filter (fun kd => ext_leb (ix_next (d_ix (snd kd))) (iv_saved (d_iv (snd kd)))) diags).

(** core.py 130-145: export_single_diag.  The export functions of the diagnostic are represented by
    [dout]; every export is appended to the log [out] as (diagnostic, time index, exported data). *)
Definition export_single_diag (acc : dict diag * list (string * Z * Out)) (name : string)
    : res (dict diag * list (string * Z * Out)) :=
  let '(diags, out) := acc in
  d <- dgetE diags name ;;
  match ix_next (d_ix d) with
  | Inf => Err ValueError          (* not reached: export_this_idx only lists finite indices *)
  | Fin e =>
    o <- dout (d_pl d) e ;;
    Ok (dset diags name (mkDiag (d_iv d) (ixc_progress (d_ix d)) (d_pl d)), out ++ [(name, e, o)])
  end.

(** core.py 156-158: the while loop; fuel counts its iterations. *)
Fixpoint dispatch_loop (fuel : nat) (acc : dict diag * list (string * Z * Out))
    : res (dict diag * list (string * Z * Out)) :=
  match export_this_idx (fst acc) with
  | [] => Ok acc
  | names =>
    match fuel with
    | O => Err OutOfFuel
    | S k => acc' <- foldM export_single_diag acc names ;; dispatch_loop k acc'
    end
  end.

Definition pending (x : ixc) : nat :=
  match ix_next x with Inf => 0 | Fin _ => S (length (ix_rest x)) end.
Definition dispatch_fuel (diags : dict diag) : nat :=
  fold_right (fun kd n => (pending (d_ix (snd kd)) + n)%nat) 0%nat diags.

(** core.py 148-159: dispatch (upcoming_export is only informative and left out). *)
Definition dispatch (plot_output : string) (acc : dict diag * list (string * Z * Out))
    : res (dict diag * list (string * Z * Out)) :=
  if negb (String.eqb plot_output "none") then dispatch_loop (dispatch_fuel (fst acc)) acc
  else Ok acc.
End Logger.
