(** Model of the concrete diagnostics in src/aspsim/diagnostics/diagnostics.py,
    src/aspsim/diagnostics/diagnosticscollection.py and of the value selection in
    src/aspsim/diagnostics/core.py.

    A diagnostic's array of shape (channels, time) that starts as NaN is a list with one entry per
    time index: [None] for a column of NaN, [Some frame] for a stored column.  (A stored sample that
    is itself NaN is not distinguished from other values.) *)
Require Import Verif.PyBase Verif.ConfigModel Verif.ArrayModel Verif.LoggerModel Verif.SimModel.
Set Implicit Arguments.

(** arithmetic used by power diagnostics: |x|^2, x / integer, x / y *)
Class DEnv {E : AEnv} := mkDEnv {
  vsq : V -> V;
  vdivz : V -> Z -> V;
  vdiv : V -> V -> V
}.

Section Store.
Context {E : AEnv} {N : DEnv}.
Definition columns := list (option frame).

(** indexing the channel axis: slice(None)/None takes all channels, a list takes those channels;
    negative indices count from the end *)
Definition pick1 (f : frame) (ch : Z) : res V :=
  match zget f (if ch <? 0 then ch + zlen f else ch) with Some x => Ok x | None => Err IndexError end.
Definition pick (chans : option (list Z)) (f : frame) : res frame :=
  match chans with None => Ok f | Some l => mapM (pick1 f) l end.

(* ------------------------------------------------------------------ RecordSignal *)
(** diagnostics.py 81-112 *)
Record rec_signal := mkRecSignal {
  rs_name : string; rs_num : Z; rs_chans : option (list Z); rs_data : columns }.
(** diagnostics.py 82-97 *)
Definition record_signal (name : string) (num_channels : Z) (chans : option (list Z)) (tot : Z) : res rec_signal :=
  _ <- passert (match chans with None => true | Some l => zlen l =? num_channels end) ;;
  Ok (mkRecSignal name num_channels chans (zrep tot None)).
(** diagnostics.py 99-110 *)
Definition record_signal_save (r : rec_signal) (v : dict (list frame)) (g : Z * Z) : res rec_signal :=
  x <- dgetE v (rs_name r) ;;
  x <- mapM (pick (rs_chans r)) x ;;
  x <- mapM (fit (rs_num r)) x ;;
  d <- pyslice_set (rs_data r) (fst g) (snd g) (map Some x) ;;
  Ok (mkRecSignal (rs_name r) (rs_num r) (rs_chans r) d).

(** core.py 488-507: get_values_up_to_idx; the assertion on NaN columns holds by typing.
    A mask that is shorter than arange(max_idx) raises IndexError. *)
Definition stored_cols {A} (l : list (option A * Z)) : list (A * Z) :=
  flat_map (fun ct => match fst ct with Some c => [(c, snd ct)] | None => [] end) l.
Definition values_up_to_idx (num : Z) (cols : columns) (max_idx : Z) : res (list frame * list Z) :=
  if num <=? 0 then Err IndexError                (* nan_filter[0, :] *)
  else
    let s := pyslice cols 0 max_idx in
    if negb (zlen s =? Z.max 0 max_idx) then Err IndexError
    else let l := stored_cols (combine s (zrange 0 max_idx)) in Ok (map fst l, map snd l).

(* ------------------------------------------------------------------ state diagnostics *)
(** diagnostics.py 115-152 RecordState; 208-232 StatePower; 235-262 StateComparison;
    266-292 StateSummary; diagnosticscollection.py 9-50 EigenvaluesOverTime: [st_get] computes the stored column from the processor. *)
Section State.
Variable PS0 : Type.
Record state_diag := mkStateDiag {
  st_get : PS0 -> frame; st_dim : Z; st_values : columns; st_times : list Z; st_idx : Z }.
(** value of an uninitialised time index: np.full(n, np.nan, dtype=int) *)
Definition nan_int : Z := - 9223372036854775808.
(** diagnostics.py 124-142 *)
Definition state_init (get : PS0 -> frame) (dim num_values : Z) : state_diag :=
  mkStateDiag get dim (zrep num_values None) (zrep num_values nan_int) 0.
(** the value computed by StatePower.save (226), StateComparison.save (257), StateSummary.save (287) *)
Definition state_power (prop : PS0 -> frame) (p : PS0) : frame :=
  [vdivz (vsum (map vsq (prop p))) (zlen (prop p))].
Definition state_comparison {X} (cmp : X -> X -> V) (s1 s2 : PS0 -> X) (p : PS0) : frame := [cmp (s1 p) (s2 p)].
Definition state_summary {X} (f : X -> V) (s : PS0 -> X) (p : PS0) : frame := [f (s p)].
(** diagnostics.py 144-149 (223-229, 252-259, 283-289 likewise) *)
Definition state_save (d : state_diag) (p : option PS0) (g : Z * Z) : res state_diag :=
  _ <- passert (snd g - fst g =? 1) ;;
  match p with
  | None => Err AttributeError
  | Some p =>
    f <- fit (st_dim d) (st_get d p) ;;
    if (0 <=? st_idx d) && (st_idx d <? zlen (st_values d)) then
      Ok (mkStateDiag (st_get d) (st_dim d) (zset (st_values d) (st_idx d) (Some f))
            (zset (st_times d) (st_idx d) (fst g)) (st_idx d + 1))
    else Err IndexError
  end.

(* ------------------------------------------------------------------ instant diagnostics *)
(** diagnostics.py 8-28 RecordFilter, 31-43 RecordFilterDifference, diagnosticscollection.py 53-81
    Eigenvalues: [in_get] is the (deep copied) value taken from the processor. *)
Record instant_diag := mkInstantDiag { in_get : PS0 -> frame; in_prop : option frame }.
Definition instant_save (d : instant_diag) (p : option PS0) : res instant_diag :=
  match p with
  | None => Err AttributeError
  | Some p => Ok (mkInstantDiag (in_get d) (Some (in_get d p)))
  end.
End State.

(** core.py 509-537: get_values_from_selection.  np.argmax of a boolean array is the first true
    position, 0 when there is none; lines 531-533 turn every 0 into the full length. *)
Fixpoint first_ge (max_idx : Z) (times : list Z) : option Z :=
  match times with
  | [] => None
  | t :: r => if max_idx <=? t then Some 0 else match first_ge max_idx r with Some k => Some (k + 1) | None => None end
  end.
Definition values_from_selection (num : Z) (cols : columns) (times : list Z) (max_idx : Z) : res (list frame * list Z) :=
  if num <=? 0 then Err IndexError
  else
    _ <- passert (zlen times =? zlen cols) ;;
    let l := stored_cols (combine cols times) in
    let '(vals, times) := (map fst l, map snd l) in
    if zlen times =? 0 then Ok (vals, times)
    else
      let above := match first_ge max_idx times with Some k => k | None => 0 end in
      let above := if above =? 0 then zlen times else above in
      Ok (pyslice vals 0 above, pyslice times 0 above).

(* ------------------------------------------------------------------ power diagnostics *)
(** np.mean(np.abs(x)**2, axis=0) for one frame *)
Definition mean_power (f : frame) : V := vdivz (vsum (map vsq f)) (zlen f).

(** diagnostics.py 157-173: SignalPower *)
Record sig_power := mkSigPower { sp_name : string; sp_chans : option (list Z); sp_data : columns }.
Definition signal_power (name : string) (chans : option (list Z)) (tot : Z) : sig_power :=
  mkSigPower name chans (zrep tot None).
Definition signal_power_save (r : sig_power) (v : dict (list frame)) (g : Z * Z) : res sig_power :=
  x <- dgetE v (sp_name r) ;;
  x <- mapM (pick (sp_chans r)) x ;;
  d <- pyslice_set (sp_data r) (fst g) (snd g) (map (fun f => Some [mean_power f]) x) ;;
  Ok (mkSigPower (sp_name r) (sp_chans r) d).

(** diagnostics.py 176-204: SignalPowerRatio.  The two smoothing filters are created inside save. *)
Record power_ratio := mkPowerRatio {
  pw_num : string; pw_den : string; pw_num_chans : option (list Z); pw_den_chans : option (list Z);
  pw_smooth : Z; pw_data : columns }.
Definition signal_power_ratio (num den : string) (nc dc : option (list Z)) (smooth tot : Z) : power_ratio :=
  mkPowerRatio num den nc dc smooth (zrep tot None).
Definition smoother (len : Z) : fir := fir_init (mkPath 1 1 len (fun _ _ _ => vdivz v1 len)).
Definition smoothed (len : Z) (x : list frame) : list frame := snd (fir_process (smoother len) x).
Fixpoint fdiv_list (a b : list frame) : list frame :=
  match a, b with
  | x :: a', y :: b' => [vdiv (chan x 0) (chan y 0)] :: fdiv_list a' b'
  | _, _ => []
  end.
Definition power_ratio_save (r : power_ratio) (v : dict (list frame)) (g : Z * Z) : res power_ratio :=
  n <- dgetE v (pw_num r) ;;
  n <- mapM (pick (pw_num_chans r)) n ;;
  d <- dgetE v (pw_den r) ;;
  d <- mapM (pick (pw_den_chans r)) d ;;
  let num := smoothed (pw_smooth r) (map (fun f => [mean_power f]) n) in
  let den := smoothed (pw_smooth r) (map (fun f => [mean_power f]) d) in
  x <- pyslice_set (pw_data r) (fst g) (snd g) (map Some (fdiv_list num den)) ;;
  Ok (mkPowerRatio (pw_num r) (pw_den r) (pw_num_chans r) (pw_den_chans r) (pw_smooth r) x).

(** diagnostics.py 311-357: SoundfieldPower.  Reads processor.sig, which is the simulator's signals;
    without a processor this is an attribute of None. *)
Record sf_power := mkSfPower { sf_name : string; sf_avg : Z; sf_power_ : frame }.
Definition soundfield_power (name : string) (num_mic : Z) (use : Z * Z) : res sf_power :=
  _ <- passert (1 <=? snd use - fst use) ;;
  Ok (mkSfPower name (snd use - fst use) (zeros num_mic)).
(** np.sum(np.abs(x)**2, axis=-1): one sum per channel (of the signal's [w] channels) *)
Definition channel_sums (w : Z) (f : V -> V) (x : list frame) : frame :=
  map (fun ch => vsum (map (fun fr => f (chan fr ch)) x)) (zrange 0 w).
Definition sf_width (x : list frame) : Z := match x with [] => 0 | f :: _ => zlen f end.
Definition soundfield_power_save {PS0} (r : sf_power) (p : option PS0) (v : dict (list frame)) : res sf_power :=
  match p with
  | None => Err AttributeError
  | Some _ =>
    x <- dgetE v (sf_name r) ;;
    pw <- fadd (sf_power_ r) (map (fun s => vdivz s (sf_avg r)) (channel_sums (sf_width x) vsq x)) ;;
    Ok (mkSfPower (sf_name r) (sf_avg r) pw)
  end.

(** diagnosticscollection.py 161-187: SignalSummary.  [su_func] = None sums all samples. *)
Record sig_summary := mkSigSummary {
  su_name : string; su_num : Z; su_func : option (list frame -> V); su_mean : V }.
Definition signal_summary (name : string) (range : Z * Z) (f : option (list frame -> V)) : sig_summary :=
  mkSigSummary name (snd range - fst range) f v0.
(** np.sum of all entries (the order of summation is numpy's; here frame after frame) *)
Definition sum_all (x : list frame) : V := vsum (concat x).
Definition signal_summary_save (r : sig_summary) (v : dict (list frame)) : res sig_summary :=
  x <- dgetE v (su_name r) ;;
  let s := match su_func r with None => sum_all x | Some f => f x end in
  Ok (mkSigSummary (su_name r) (su_num r) (su_func r) (vadd (su_mean r) (vdivz s (su_num r)))).

(** diagnosticscollection.py 116-157: SignalPowerSpectrum: the samples are collected and the
    spectrum [spsig.welch] is computed from them when exporting. *)
Record sig_spectrum := mkSigSpectrum {
  sx_name : string; sx_num : Z; sx_chans : option (list Z); sx_data : columns; sx_count : Z }.
Definition signal_spectrum (name : string) (range : Z * Z) (num_channels : Z) (chans : option (list Z)) : sig_spectrum :=
  mkSigSpectrum name num_channels chans (zrep (snd range - fst range) None) 0.
Definition signal_spectrum_save (r : sig_spectrum) (v : dict (list frame)) (g : Z * Z) : res sig_spectrum :=
  let n := snd g - fst g in      (* chunkInterval[1] - chunkInterval[0], the same number *)
  x <- dgetE v (sx_name r) ;;
  x <- mapM (pick (sx_chans r)) x ;;
  x <- mapM (fit (sx_num r)) x ;;
  d <- pyslice_set (sx_data r) (sx_count r) (sx_count r + n) (map Some x) ;;
  Ok (mkSigSpectrum (sx_name r) (sx_num r) (sx_chans r) d (sx_count r + n)).
End Store.

(* ------------------------------------------------------------------ all classes together *)
Section All.
Context {E : AEnv} {N : DEnv}.
Variables PS0 D0 Out0 : Type.
Variable dsave0 : D0 -> option PS0 -> dict (list frame) -> Z * Z -> res D0.
Variable dout0 : D0 -> Z -> res Out0.

(** a diagnostic object: one of the classes above, or any other user-defined one *)
Inductive dg :=
| DRecordSignal (r : rec_signal)
| DSignalPower (r : sig_power)
| DPowerRatio (r : power_ratio)
| DState (r : state_diag PS0)
| DInstant (r : instant_diag PS0)
| DSoundfield (r : sf_power)
| DSummary (r : sig_summary)
| DSpectrum (r : sig_spectrum)
| DOther (d : D0).

(** dynamic dispatch of save (core.py 90, 96) *)
Definition dg_save (d : dg) (p : option PS0) (v : dict (list frame)) (g : Z * Z) : res dg :=
  match d with
  | DRecordSignal r => x <- record_signal_save r v g ;; Ok (DRecordSignal x)
  | DSignalPower r => x <- signal_power_save r v g ;; Ok (DSignalPower x)
  | DPowerRatio r => x <- power_ratio_save r v g ;; Ok (DPowerRatio x)
  | DState r => x <- state_save r p g ;; Ok (DState x)
  | DInstant r => x <- instant_save r p ;; Ok (DInstant x)
  | DSoundfield r => x <- soundfield_power_save r p v ;; Ok (DSoundfield x)
  | DSummary r => x <- signal_summary_save r v ;; Ok (DSummary x)
  | DSpectrum r => x <- signal_spectrum_save r v g ;; Ok (DSpectrum x)
  | DOther d => x <- dsave0 d p v g ;; Ok (DOther x)
  end.

(** what an export hands to the export function *)
Inductive exported :=
| XSignal (values : list frame) (times : list Z)
| XValue (v : option frame)
| XColumns (c : columns)
| XOther (o : Out0).

(** get_processed_output without preprocessing functions: core.py 332-339 (Diagnostic),
    369-373 (SignalDiagnostic), 404-408 (StateDiagnostic) *)
Definition dg_out (d : dg) (e : Z) : res exported :=
  match d with
  | DRecordSignal r => x <- values_up_to_idx (rs_num r) (rs_data r) e ;; Ok (XSignal (fst x) (snd x))
  | DSignalPower r => x <- values_up_to_idx 1 (sp_data r) e ;; Ok (XSignal (fst x) (snd x))
  | DPowerRatio r => x <- values_up_to_idx 1 (pw_data r) e ;; Ok (XSignal (fst x) (snd x))
  | DState r => x <- values_from_selection (st_dim r) (st_values r) (st_times r) e ;; Ok (XSignal (fst x) (snd x))
  | DInstant r => Ok (XValue (in_prop r))
  | DSoundfield r => Ok (XValue (Some (sf_power_ r)))
  | DSummary r => Ok (XValue (Some [su_mean r]))
  | DSpectrum r => Ok (XColumns (sx_data r))
  | DOther d => o <- dout0 d e ;; Ok (XOther o)
  end.

(** the simulator with these diagnostics *)
Definition full : SEnv := @mkSEnv E PS0 dg exported dg_save dg_out.
End All.
Arguments DRecordSignal {E PS0 D0} _.
Arguments DSignalPower {E PS0 D0} _.
Arguments DPowerRatio {E PS0 D0} _.
Arguments DState {E PS0 D0} _.
Arguments DInstant {E PS0 D0} _.
Arguments DSoundfield {E PS0 D0} _.
Arguments DSummary {E PS0 D0} _.
Arguments DSpectrum {E PS0 D0} _.
Arguments DOther {E PS0 D0} _.
Arguments XSignal {E Out0} _ _.
Arguments XValue {E Out0} _.
Arguments XColumns {E Out0} _.
Arguments XOther {E Out0} _.
