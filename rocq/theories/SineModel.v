(** Model of the sine sources, src/aspsim/signal/sources.py lines 121-147 and 171-207, over the real numbers.
    Floating point rounding is not modelled. *)
Require Import Verif.PyBase.
Require Export Reals.
Set Implicit Arguments.
Local Open Scope list_scope.
Local Open Scope Z_scope.

(** x % m of numpy for m > 0: the result lies between 0 and m *)
Definition rmod (x m : R) : R := (x - IZR (Int_part (x / m)) * m)%R.

(** The argument [power] of the sources: a number, or a one-dimensional array *)
Inductive power_arg := PNumber (p : R) | PArray (l : list R).
Definition map_power (f : R -> R) (p : power_arg) : power_arg := match p with PNumber x => PNumber (f x) | PArray l => PArray (map f l) end.

(** sources.py 121-139 SineSource.__init__: amplitude, phase of each channel, phase per sample.
    The phases are drawn by rng.uniform(0, 2 pi); they are a parameter. The frequency is a number. Metadata is left out. *)
Record sine := mkSine { si_amplitude : power_arg; si_phase : list R; si_step : R }.
Definition sine_init (power : power_arg) (freq samplerate : R) (phases : list R) : sine :=
  mkSine (map_power (fun p => sqrt (2 * p)) power) phases (2 * PI * freq / samplerate)%R.

(** amplitude * array for a two-dimensional array, with the broadcasting rules of numpy:
    a one-dimensional array is aligned with the last axis, the samples *)
Definition broadcast_mul (a : power_arg) (n : Z) (x : list (list R)) : res (list (list R)) :=
  match a with
  | PNumber a => Ok (map (map (Rmult a)) x)
  | PArray [a] => Ok (map (map (Rmult a)) x)
  | PArray l => if zlen l =? n then Ok (map (fun row => map (fun p => Rmult (fst p) (snd p)) (combine l row)) x)
                else if n =? 1 then Ok (map (fun row => flat_map (fun v => map (fun a => Rmult a v) l) row) x)
                else Err ValueError
  end.
(** sources.py 141-147 SineSource.get_samples *)
Definition sine_get (s : sine) (n : Z) : res (list (list R) * sine) :=
  out <- broadcast_mul (si_amplitude s) n (map (fun phase => map (fun k => cos (si_step s * IZR k + phase)) (zrange 0 n)) (si_phase s)) ;;
  Ok (out, mkSine (si_amplitude s) (map (fun phase => rmod (phase + IZR n * si_step s) (2 * PI)) (si_phase s)) (si_step s)).

(** sources.py 171-194 MultiSineSource.__init__; the phases, one for each frequency, are drawn by rng.uniform(0, 2 pi).
    The assertion freq.ndim == 1 holds for a list of numbers. A power that is a python number divided by 0 sines is an error *)
Record multisine := mkMulti { ms_amplitude : R; ms_steps : list R; ms_phase : list R }.
Definition multisine_init (num_channels : Z) (power : power_arg) (freqs : list R) (samplerate : R) (phases : list R) : res multisine :=
  if 1 <? num_channels then Err NotImplementedError else
  match power with
  | PArray _ => Err NotImplementedError
  | PNumber p => if zlen freqs =? 0 then Err ZeroDivisionError else Ok (mkMulti (sqrt (2 * p / IZR (zlen freqs))) (map (fun f => 2 * PI * f / samplerate)%R freqs) phases)
  end.
(** sources.py 196-207 MultiSineSource.get_samples: the sines are added one after the other to zeros *)
Fixpoint add_sines (a : R) (n : Z) (steps phases : list R) (noise : list R) : list R * list R :=
  match steps, phases with
  | st :: steps, ph :: phases =>
      let noise := map (fun p => (fst p + snd p)%R) (combine noise (map (fun k => (a * cos (IZR k * st + ph))%R) (zrange 0 n))) in
      let r := add_sines a n steps phases noise in
      (fst r, rmod (ph + IZR n * st) (2 * PI) :: snd r)
  | _, _ => (noise, [])
  end.
Definition multisine_get (s : multisine) (n : Z) : res (list (list R) * multisine) :=
  let r := add_sines (ms_amplitude s) n (ms_steps s) (ms_phase s) (zrep n 0%R) in
  Ok ([fst r], mkMulti (ms_amplitude s) (ms_steps s) (snd r)).
