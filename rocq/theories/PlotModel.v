(** Model of the parts of diagnostics/plot.py and diagnostics/soundfieldplot.py that compute something before the data is
    handed to matplotlib or soundfile: sort_for_imshow, create_audio_files and legend_without_duplicates. *)
Require Import Verif.PyBase Verif.PyStr.
From Coq Require Import Ascii Reals.
Set Implicit Arguments.
Local Open Scope string_scope.
Local Open Scope list_scope.
Local Open Scope Z_scope.

(* ------------------------------------------------------------------ soundfieldplot.py *)
(** Coordinates are integers in units of 10^-pos_decimals / u, for any u >= 1: every finite set of rational numbers, hence
    of floats, can be written like this.  The calculations are exact. *)
Section Imshow.
Variable u : Z.
(** numpy's round: to the nearest multiple of 10^-pos_decimals, which is u here; halves go to the even neighbour *)
Definition np_round (p : Z) : Z :=
  let q := p / u in
  let r := p mod u in
  if 2 * r <? u then q * u else if u <? 2 * r then (q + 1) * u else if Z.even q then q * u else (q + 1) * u.

(** np.unique: the different values in increasing order *)
Fixpoint insert_new (x : Z) (l : list Z) : list Z :=
  match l with
  | [] => [x]
  | y :: r => if x <? y then x :: l else if x =? y then l else y :: insert_new x r
  end.
Definition np_unique (l : list Z) : list Z := fold_right insert_new [] l.

(** soundfieldplot.py 100-105 (get_num_pixels) *)
Definition get_num_pixels (pos : list (Z * Z)) : Z * Z :=
  let pos_cols := np_unique (map (fun p => np_round (fst p)) pos) in
  let pos_rows := np_unique (map (fun p => np_round (snd p)) pos) in
  (zlen pos_rows, zlen pos_cols).

(** np.argsort: some permutation that sorts; the order of equal values is not fixed *)
Variable argsort : list Z -> list Z.
(** np.allclose of two numbers *)
Variable close : Z -> Z -> bool.

(** l[i] for an index >= 0 *)
Definition at_idx {A} (l : list A) (i : Z) : res A := match zget l i with Some x => Ok x | None => Err IndexError end.

(** soundfieldplot.py 137-139: the entries of sort_indices in one row; an array with one entry is broadcast over the row *)
Definition sort_row (pos : list (Z * Z)) (num_cols y : Z) : res (list Z) :=
  let row_indices := filter (fun n => match zget pos n with Some p => Z.abs (snd p - y) <? u | None => false end) (zrange 0 (zlen pos)) in
  xs <- mapM (fun n => p <- at_idx pos n ;; Ok (fst p)) row_indices ;;
  permuted <- mapM (at_idx row_indices) (argsort xs) ;;
  if zlen permuted =? num_cols then Ok permuted
  else match permuted with [n] => Ok (zrep num_cols n) | _ => Err ValueError end.

(** soundfieldplot.py 108-156 (sort_for_imshow).  [pos] holds the first two coordinates, [zs] the third ones if there are
    three; [sig] holds one value of any type for each position.  The results are lists of rows. *)
Definition sort_for_imshow {S} (pos : list (Z * Z)) (zs : option (list Z)) (sig : list S) : res (list (list (Z * Z)) * list (list S)) :=
  _ <- match zs with
       | None => Ok tt
       | Some zs => match zs with
                    | [] => Err IndexError
                    | z0 :: _ => passert (forallb (fun z => close z z0) zs)
                    end
       end ;;
  let '(num_rows, num_cols) := get_num_pixels pos in
  let unique_y := np_unique (map (fun p => np_round (snd p)) pos) in
  sort_indices <- mapM (sort_row pos num_cols) unique_y ;;
  pos_sorted <- mapM (mapM (at_idx pos)) sort_indices ;;
  sig_rows <- mapM (mapM (at_idx sig)) sort_indices ;;
  Ok (pos_sorted, rev sig_rows).
End Imshow.

(* ------------------------------------------------------------------ plot.py 318-354 *)
Section Audio.
Local Open Scope R_scope.
(** np.max(np.abs(signal)); ValueError for an array without entries *)
Definition max_abs (signal : list (list R)) : res R :=
  match concat signal with
  | [] => Err ValueError
  | x :: r => Ok (fold_right (fun y m => Rmax (Rabs y) m) (Rabs x) r)
  end.
(** what is written: real numbers, or only NaN *)
Inductive audio := Samples (x : list (list R)) | AllNan.
(** np.linspace(0, 1, n) *)
Definition linspace01 (n : Z) : list R := map (fun k => if (n =? 1)%Z then 0 else IZR k / IZR (n - 1)) (zrange 0 n).
(** ch[a:b] *= ramp *)
Definition scale_part (ch : list R) (a b : Z) (ramp : list R) : res (list R) :=
  pyslice_set ch a b (map (fun p => fst p * snd p) (combine (pyslice ch a b) ramp)).
(** plot.py 345-352: a channel's samples divided by the peak, with ramps at both ends; a slice from -n to the end *)
Definition ramped (ramp_length : Z) (ch : list R) : res (list R) :=
  if (0 <? ramp_length)%Z then
    let ramp := linspace01 ramp_length in
    c1 <- scale_part ch 0 ramp_length ramp ;;
    scale_part c1 (- ramp_length) (zlen c1) (map (fun r => 1 - r) ramp)
  else Ok ch.
(** plot.py 345-352 for one processor.  [samplerate] is an integer; int(0.2*samplerate) and int(0.1*n) are the rounded down
    quotients by 5 and 10.  All channels have the same length. A peak of zero makes every sample NaN (with a warning). *)
Definition audio_signal (samplerate : Z) (signal : list (list R)) : res audio :=
  peak <- max_abs signal ;;
  if Req_EM_T peak 0 then Ok AllNan
  else
    let signal_to_write := map (map (fun x => x / peak)) signal in
    let n := match signal with [] => 0%Z | ch :: _ => zlen ch end in
    let ramp_length := Z.min (samplerate / 5) (n / 10) in
    x <- mapM (ramped ramp_length) signal_to_write ;;
    Ok (Samples x).
(** plot.py 333-335, 354: the files written for the processors in [outputs] *)
Definition create_audio_files (name : string) (time_idx samplerate : Z) (outputs : dict (list (list R))) : res (list (string * audio)) :=
  mapM (fun kv => a <- audio_signal samplerate (snd kv) ;; Ok ((name ++ "_" ++ fst kv ++ "_" ++ py_str time_idx ++ ".wav")%string, a)) outputs.
End Audio.

(* ------------------------------------------------------------------ plot.py 192-200 *)
(** label.replace("_", "\_"): a backslash is put before every underscore *)
Fixpoint escape (s : string) : string :=
  match s with
  | EmptyString => EmptyString
  | String c r => if Ascii.eqb c "_" then String "\" (String "_" (escape r)) else String c (escape r)
  end.
(** plot.py 192-200 (legend_without_duplicates): the handles and labels given to ax.legend.  [entries] is what
    get_legend_handles_labels returned. *)
Definition legend_without_duplicates {H} (entries : list (H * string)) : list (H * string) :=
  fold_left (fun shown e => if smem (snd e) (map snd shown) then shown else shown ++ [(fst e, escape (snd e))]) entries [].
