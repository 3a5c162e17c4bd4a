(** Model of frequency domain code over the real numbers: ArrayCollection.get_freq_paths (array.py 366-405), the AR filter
    design of AutocorrSource and load_audio_file (signal/sources.py 288-348), and the frequency responses of
    differential_cardioid_microphone (room/directional.py).  Complex numbers are pairs of reals. *)
Require Import Verif.PyBase Verif.ExportModel.
From Coq Require Import Reals.
Set Implicit Arguments.
Local Open Scope Z_scope.

Section Sums.
Local Open Scope R_scope.
(** np.sum *)
Definition rsum (l : list R) : R := fold_right Rplus 0 l.
(** the sum of f k for a <= k < b *)
Definition sumz (a b : Z) (f : Z -> R) : R := rsum (map f (zrange a b)).
End Sums.

(* ------------------------------------------------------------------ array.py 366-405 *)
(** an ndarray with three axes: the lengths and the entries *)
Record arr3 (A : Type) := mkArr { dim0 : Z; dim1 : Z; dim2 : Z; at3 : Z -> Z -> Z -> A }.
Section Freq.
Local Open Scope R_scope.
Definition cplx : Type := R * R.
(** np.fft.rfft(h, n=n)[f] for a real signal h(0), .., h(len-1): the signal is cut or filled with zeros to n samples *)
Definition rfft_at (n len : Z) (h : Z -> R) (f : Z) : cplx :=
  (sumz 0 (Z.min len n) (fun t => h t * cos (2 * PI * IZR f * IZR t / IZR n)),
   - sumz 0 (Z.min len n) (fun t => h t * sin (2 * PI * IZR f * IZR t / IZR n))).
(** np.fft.rfft(path, n=num_freqs, axis=-1).T ; ValueError for fewer than one point *)
Definition rfft_T (n : Z) (path : arr3 R) : res (arr3 cplx) :=
  if (n <? 1)%Z then Err ValueError
  else Ok (mkArr (n / 2 + 1) (dim1 path) (dim0 path) (fun f m s => rfft_at n (dim2 path) (at3 path s m) f)).

(** array.py 366-405 (get_freq_paths).  [names_src], [names_mic] and [paths] are attributes of the collection; the
    iteration is that of iter_paths (137-141).  Keys of dictionaries that do not exist raise KeyError. *)
Definition get_freq_paths (names_src names_mic : list string) (paths : dict (dict (arr3 R))) (num_freqs : Z) (samplerate : R)
  : res (dict (dict (arr3 cplx)) * list R) :=
  if (num_freqs mod 2 =? 1)%Z then Err NotImplementedError
  else if (num_freqs =? 0)%Z then Err ZeroDivisionError
  else
    let freqs := map (fun k => samplerate / IZR num_freqs * IZR k) (zrange 0 (num_freqs / 2 + 1)) in
    fpaths <- foldM (fun (fpaths : dict (dict (arr3 cplx))) src =>
      foldM (fun (fpaths : dict (dict (arr3 cplx))) mic =>
        from_src <- dgetE paths src ;;
        path <- dgetE from_src mic ;;
        let inner : dict (arr3 cplx) := match dget fpaths src with Some d => d | None => [] end in
        value <- rfft_T num_freqs path ;;
        Ok (dset fpaths src (dset inner mic value))) fpaths names_mic) [] names_src ;;
    Ok (fpaths, freqs).
End Freq.

(* ------------------------------------------------------------------ sources.py 318-348 *)
Section AR.
Local Open Scope R_scope.
(** scipy.linalg.solve_toeplitz(c, b) *)
Variable solve_toeplitz : list R -> list R -> res (list R).
(** sources.py 318-333 (ar_coeffs_from_autocorr) for one channel *)
Definition ar_coeffs_from_autocorr (autocorr : list R) : res (list R * R) :=
  ar_coeffs <- solve_toeplitz (pyslice autocorr 0 (-1)) (pyslice autocorr 1 (zlen autocorr)) ;;
  match autocorr with
  | [] => Err IndexError
  | r0 :: _ =>
      let rest := pyslice autocorr 1 (zlen autocorr) in
      Ok (ar_coeffs, r0 - rsum (map (fun p => fst p * snd p) (combine rest ar_coeffs)))
  end.
(** sources.py 335-348 (ar_coeffs_to_transfer_function) *)
Definition ar_coeffs_to_transfer_function (ar_coeffs : list R) : list R * list R := ([1], 1 :: map Ropp ar_coeffs).
(** one sample of scipy.signal.lfilter, as its documentation and the comment in 340-343 give it:
    a_0 y(n) = b_0 x(n) + .. + b_t x(n-t) - a_1 y(n-1) - .. - a_p y(n-p), with zeros before the start *)
Definition lfilter_step (num denom x y : list R) : R :=
  let n := zlen y in
  let get (l : list R) (i : Z) : R := match zget l i with Some v => v | None => 0 end in
  (sumz 0 (zlen num) (fun k => get num k * get x (n - k)%Z) - sumz 1 (zlen denom) (fun k => get denom k * get y (n - k)%Z)) / get denom 0%Z.
Definition lfilter (num denom x : list R) : list R := fold_left (fun y _ => y ++ [lfilter_step num denom x y]) x [].
End AR.

(* ------------------------------------------------------------------ sources.py 288-311 *)
Section AudioFile.
Variable X : Type.
(** what soundfile.read returned: an array with one axis for a file with one channel, otherwise one with the axes samples and
    channels; here the list of channels *)
Inductive file_data := Mono (x : X) | Multi (channels : list X).
(** scipy.signal.resample_poly(x, up, down) and aspcore's simplify_ratio *)
Variable resample_poly : X -> Z -> Z -> X.
Variable simplify_ratio : Z -> Z -> Z * Z.
(** sources.py 288-311 (load_audio_file); printing is left out.  audio[:num_channels, :] is a slice of the channels, and
    np.stack needs at least one array *)
Definition load_audio_file (data : file_data) (audio_sr : Z) (desired_sr num_channels : option Z) : res (list X) :=
  match data with
  | Mono _ => Err AssertionError
  | Multi audio =>
      let audio := match num_channels with Some n => pyslice audio 0 n | None => audio end in
      let same := match desired_sr with Some sr => sr =? audio_sr | None => false end in
      if same then Ok audio
      else match desired_sr with
           | None => Err TypeError
           | Some desired_sr =>
               _ <- passert (desired_sr <? audio_sr) ;;
               if desired_sr =? 0 then Err ZeroDivisionError
               else
                 let '(up_factor, down_factor) := if audio_sr mod desired_sr =? 0 then (1, audio_sr / desired_sr) else simplify_ratio desired_sr audio_sr in
                 match num_channels with
                 | None => Err TypeError
                 | Some n =>
                     down <- mapM (fun ch => match zget audio ch with Some x => Ok (resample_poly x up_factor down_factor) | None => Err IndexError end) (zrange 0 n) ;;
                     match down with [] => Err ValueError | _ => Ok down end
                 end
           end
  end.
End AudioFile.

(* ------------------------------------------------------------------ directional.py *)
Section Cardioid.
Local Open Scope R_scope.
Definition cadd (a b : cplx) : cplx := (fst a + fst b, snd a + snd b).
Definition csub (a b : cplx) : cplx := (fst a - fst b, snd a - snd b).
Definition cmul (a b : cplx) : cplx := (fst a * fst b - snd a * snd b, fst a * snd b + snd a * fst b).
Definition cconj (a : cplx) : cplx := (fst a, - snd a).
Definition copp (a : cplx) : cplx := (- fst a, - snd a).
Definition cscale (x : R) (a : cplx) : cplx := (x * fst a, x * snd a).
(** 1 / a; numpy gives infinities or NaN for a = 0 *)
Definition cinv (a : cplx) : cplx := let n := fst a * fst a + snd a * snd a in (fst a / n, - snd a / n).
(** exp(j x) *)
Definition cexp (x : R) : cplx := (cos x, sin x).
Variables (microphone_distance c : R).
(** directional.py 44-45, 57-58: the wave number *)
Definition wave_num (f : R) : R := let k := 2 * PI * f / c in if Req_EM_T k 0 then 1 / 10000000000 else k.
(** directional.py 46, 60 *)
Definition both_mic_factor (f : R) : cplx := cinv (csub (1, 0) (cexp (- (2 * wave_num f * microphone_distance)))).
(** directional.py 50-54, 64-68: the first frequencies are multiplied by the fourth power of a ramp from 0 to 1; [f] is in
    increasing order *)
Definition low_ramp (fs : list R) (filter_below : option R) (i : Z) : R :=
  match filter_below with
  | None => 1
  | Some limit =>
      let n := zlen (filter (fun f => if Rle_dec f limit then true else false) fs) in
      if (i <? n)%Z then (if (n =? 1)%Z then 0 else IZR i / IZR (n - 1)) ^ 4 else 1
  end.
(** directional.py 48, 62: mic1_factor and mic2_factor; 47, 61: the factor at index 0 is set to zero *)
Definition main_factor (first : bool) (f : R) : cplx := cconj (if first then (0, 0) else both_mic_factor f).
Definition secondary_factor (first : bool) (f : R) : cplx :=
  copp (cconj (cmul (if first then (0, 0) else both_mic_factor f) (cexp (- (wave_num f * microphone_distance))))).
(** directional.py 43-55 and 57-69: freq_response_main_mic and freq_response_secondary_mic *)
Definition freq_response (factor : bool -> R -> cplx) (fs : list R) (filter_below : option R) : list cplx :=
  map (fun p => cscale (low_ramp fs filter_below (fst p)) (factor (fst p =? 0)%Z (snd p))) (combine (zrange 0 (zlen fs)) fs).
Definition freq_response_main_mic : list R -> option R -> list cplx := freq_response main_factor.
Definition freq_response_secondary_mic : list R -> option R -> list cplx := freq_response secondary_factor.

(** directional.py 82-87 for one pair of microphones: filtering, sum and the cut that removes the delay of the filters.
    fftconvolve is the convolution sum; the signals are not empty and equally long *)
Definition cardioid_signal (filter_order : Z) (mic1_ir mic2_ir signal_main signal_secondary : list R) : list R :=
  let signal_main_filtered := convolve_full signal_main mic1_ir in
  let signal_secondary_filtered := convolve_full signal_secondary mic2_ir in
  let cardioid_signal := map (fun p => fst p + snd p) (combine signal_main_filtered signal_secondary_filtered) in
  pyslice cardioid_signal filter_order (filter_order + zlen signal_main).
End Cardioid.
