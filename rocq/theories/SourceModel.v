(** Model of signal/sources.py.  A signal of shape (channels, samples) is the list of its channels.  Metadata is left out. *)
Require Import Verif.PyBase Verif.PyStr Verif.UtilModel.
Set Implicit Arguments.
Local Open Scope string_scope.
Local Open Scope list_scope.
Local Open Scope Z_scope.

Section Signals.
Context {V : Type}.
Definition signal := list (list V).
(** np.zeros((channels, samples)) *)
Definition blank (v0 : V) (channels samples : Z) : signal := zrep channels (zrep samples v0).
(** sig[:, a:b] *)
Definition cols (sig : signal) (a b : Z) : signal := map (fun row => pyslice row a b) sig.
(** sig[:, a:b] = new, for the same number of channels *)
Definition set_cols (sig : signal) (a b : Z) (new : signal) : res signal :=
  if zlen sig =? zlen new then mapM (fun p => pyslice_set (fst p) a b (snd p)) (combine sig new) else Err ValueError.
End Signals.

(** Sequence.get_samples (sources.py 76-81) and GoldSequenceSource.get_samples (466-473): the loop over the blocks, which copies
    parts of [audio] (tot samples per channel) into sig; the state is sig, the position in the audio and the position in sig *)
Definition copy_blocks {V} (audio : signal) (tot : Z) (blocks : list Z) (sig : @signal V) (current : Z) : res (signal * Z) :=
  r <- foldM (fun st block_len => let '(sig, current, i) := st in
         sig <- set_cols sig i (i + block_len) (cols audio current (current + block_len)) ;;
         if tot =? 0 then Err ZeroDivisionError else Ok (sig, (current + block_len) mod tot, i + block_len)) (sig, current, 0) blocks ;;
  let '(sig, current, _) := r in Ok (sig, current).

(* ------------------------------------------------------------------ Sequence *)
Section SequenceSource.
Context {V : Type} (v0 : V) (vmul : V -> V -> V).
Record sequence := mkSequence { sq_audio : @signal V; sq_tot : Z; sq_amp : V; sq_end_mode : string; sq_current : Z }.
(** sources.py 47-71 (Sequence.__init__) for a two-dimensional array with [tot] samples per channel *)
Definition sequence_init (audio : signal) (tot : Z) (amp_factor : V) (end_mode : string) : sequence := mkSequence audio tot amp_factor end_mode 0.
(** sources.py 61-62: a one-dimensional array is taken as one channel *)
Definition sequence_init_1d (audio : list V) (amp_factor : V) (end_mode : string) : sequence := sequence_init [audio] (zlen audio) amp_factor end_mode.
(** sources.py 73-93 (Sequence.get_samples); amp_factor is a number *)
Definition sequence_get (s : sequence) (num_samples : Z) : res (signal * sequence) :=
  let set_current c := mkSequence (sq_audio s) (sq_tot s) (sq_amp s) (sq_end_mode s) c in
  if String.eqb (sq_end_mode s) "repeat" then
    block_lengths <- calc_block_sizes num_samples (sq_current s) (sq_tot s) ;;
    r <- copy_blocks (sq_audio s) (sq_tot s) block_lengths (blank v0 (zlen (sq_audio s)) num_samples) (sq_current s) ;;
    Ok (map (map (fun x => vmul x (sq_amp s))) (fst r), set_current (snd r))
  else if String.eqb (sq_end_mode s) "zeros" then Err NotImplementedError
  else if String.eqb (sq_end_mode s) "raise" then
    if sq_tot s <=? sq_current s + num_samples then Err StopIteration
    else Ok (cols (sq_audio s) (sq_current s) (sq_current s + num_samples), set_current (sq_current s + num_samples))
  else Err ValueError.
End SequenceSource.

(* ------------------------------------------------------------------ noise *)
Section Noise.
Context {V : Type} (vmul : V -> V -> V).
(** A random generator: any state machine that yields one standard normal number after the other.  Generator.normal fills an
    array of the given size in C order and multiplies every number by its scale. *)
Context {G : Type} (draw : G -> V * G).
(** one row of [cols] numbers, the i-th scaled by [scale (j + i)] *)
Fixpoint normal_row (scale : Z -> V) (j : Z) (cols : nat) (g : G) : list V * G :=
  match cols with
  | O => ([], g)
  | S k => let '(z, g) := draw g in let '(r, g) := normal_row scale (j + 1) k g in (vmul (scale j) z :: r, g)
  end.
(** normal(loc=0, scale=.., size=(rows, cols)) *)
Fixpoint normal_rows (scale : Z -> Z -> V) (i : Z) (rows : nat) (cols : Z) (g : G) : signal * G :=
  match rows with
  | O => ([], g)
  | S k => let '(r, g) := normal_row (scale i) 0 (Z.to_nat cols) g in let '(rs, g) := normal_rows scale (i + 1) k cols g in (r :: rs, g)
  end.
Definition normal (scale : Z -> Z -> V) (rows cols : Z) (g : G) : signal * G := normal_rows scale 0 (Z.to_nat rows) cols g.
(** x.T of an array with [n] columns *)
Definition transpose (v0 : V) (rows : signal) (n : Z) : @signal V := map (fun c => map (fun row => match zget row c with Some x => x | None => v0 end) rows) (zrange 0 n).

(** sources.py 96-119 (WhiteNoiseSource); the standard deviations are one number, or one per channel *)
Record white := mkWhite { wn_channels : Z; wn_std : list V; wn_rng : G }.
(** sources.py 97-99 and 111-118 (__init__, set_power); [sqrt] is np.sqrt; a number is given as a list of length 1 *)
Definition white_init (sqrt : V -> V) (num_channels : Z) (power : list V) (rng : G) : res white :=
  _ <- passert ((zlen power =? num_channels) || (zlen power =? 1)) ;; Ok (mkWhite num_channels (map sqrt power) rng).
(** broadcasting of the standard deviations over the channels *)
Definition per_channel (v0 : V) (l : list V) (c : Z) : V := match zget l (if zlen l =? 1 then 0 else c) with Some x => x | None => v0 end.
(** sources.py 106-109 (get_samples) *)
Definition white_get (v0 : V) (s : white) (num_samples : Z) : res (signal * white) :=
  let '(x, g) := normal (fun i j => per_channel v0 (wn_std s) j) num_samples (wn_channels s) (wn_rng s) in
  Ok (transpose v0 x (wn_channels s), mkWhite (wn_channels s) (wn_std s) g).

(** Filters (scipy.signal.sosfilt with zi, aspcore.filter.IIRFilter): per channel any causal state machine *)
Context {F : Type} (fstep : F -> V -> V * F).
Fixpoint filter_row (f : F) (x : list V) : list V * F :=
  match x with
  | [] => ([], f)
  | v :: x => let '(y, f) := fstep f v in let '(ys, f) := filter_row f x in (y :: ys, f)
  end.
Definition filter_rows (fs : list F) (x : signal) : signal * list F :=
  let r := map (fun p => filter_row (fst p) (snd p)) (combine fs x) in (map fst r, map snd r).

(** sources.py 211-247 (BandlimitedNoiseSource) *)
Record bandlim := mkBandlim { bl_channels : Z; bl_amplitude : V; bl_zi : list F; bl_rng : G }.
(** sources.py 212-232 (__init__), state only: [one] is the scale 1 of the test signal, [zi] the initial state of the filter, [amplitude_of] computes the
    amplitude from the filtered test signal of 10000 samples (lines 221-223, 239-241) *)
Definition bandlim_init (one : V) (zi : F) (zero_state : F) (amplitude_of : signal -> V) (num_channels : Z) (rng : G) : bandlim :=
  let '(x, g) := normal (fun _ _ => one) num_channels 10000 rng in
  let '(test, _) := filter_rows (zrep num_channels zero_state) x in
  mkBandlim num_channels (amplitude_of test) (zrep num_channels zi) g.
(** sources.py 234-237 (get_samples); amplitude * normal(size=..) *)
Definition bandlim_get (s : bandlim) (num_samples : Z) : res (signal * bandlim) :=
  let '(x, g) := normal (fun _ _ => bl_amplitude s) (bl_channels s) num_samples (bl_rng s) in
  let '(y, zi) := filter_rows (bl_zi s) x in
  Ok (y, mkBandlim (bl_channels s) (bl_amplitude s) zi g).

(** sources.py 350-384 (AutocorrSource); ac_std are the square roots of noise_power, one per channel *)
Record autocorr := mkAutocorr { ac_channels : Z; ac_std : list V; ac_filt : list F; ac_rng : G }.
(** sources.py 379-381 (prepare); [order] are the orders of the filters *)
Definition autocorr_prepare (v0 : V) (order : list Z) (s : autocorr) : autocorr :=
  fold_left (fun s ch =>
    let '(x, g) := normal (fun _ _ => match zget (ac_std s) ch with Some v => v | None => v0 end) (ac_channels s) (match zget order ch with Some n => n | None => 0 end) (ac_rng s) in
    let '(_, fs) := filter_rows (ac_filt s) x in
    mkAutocorr (ac_channels s) (ac_std s) fs g) (zrange 0 (ac_channels s)) s.
(** sources.py 383-384 (get_samples) *)
Definition autocorr_get (v0 : V) (s : autocorr) (num_samples : Z) : res (signal * autocorr) :=
  let '(x, g) := normal (fun i _ => match zget (ac_std s) i with Some v => v | None => v0 end) (ac_channels s) num_samples (ac_rng s) in
  let '(y, fs) := filter_rows (ac_filt s) x in
  Ok (y, mkAutocorr (ac_channels s) (ac_std s) fs g).
End Noise.

(* ------------------------------------------------------------------ pulses and counting *)
Section Pulses.
Context {V : Type} (v0 : V).
(** sources.py 250-282 (PulseTrain); integer periods and delays; one channel: amplitude, period, index *)
Record pulse := mkPulse { pt_amplitude : V; pt_period : Z; pt_idx : Z }.
(** sources.py 251-273 (__init__): parameters given per channel (a number stands for the same one in all channels) *)
Definition pulse_init (num_channels : Z) (amplitude : list V) (period delay : list Z) : res (list pulse) :=
  _ <- passert (zlen amplitude =? num_channels) ;; _ <- passert (zlen period =? num_channels) ;; _ <- passert (zlen delay =? num_channels) ;;
  Ok (map (fun p => mkPulse (fst (fst p)) (snd (fst p)) (0 - snd p)) (combine (combine amplitude period) delay)).
(** sources.py 279-281: one sample; np.mod by 0 gives nan, which is not 0 *)
Definition pulse_sample (p : pulse) : V * pulse :=
  (if negb (pt_period p =? 0) && (pt_idx p mod pt_period p =? 0) then pt_amplitude p else v0, mkPulse (pt_amplitude p) (pt_period p) (pt_idx p + 1)).
Fixpoint pulse_row (n : nat) (p : pulse) : list V * pulse :=
  match n with O => ([], p) | S k => let '(x, p) := pulse_sample p in let '(r, p) := pulse_row k p in (x :: r, p) end.
(** sources.py 275-282 (get_samples); the loop over the samples handles all channels at once, here channel by channel *)
Definition pulse_get (s : list pulse) (num_samples : Z) : res (signal * list pulse) :=
  let r := map (pulse_row (Z.to_nat num_samples)) s in Ok (map fst r, map snd r).
End Pulses.
(** sources.py 150-166 (Counter): the state is current_number; the values form one channel *)
Definition counter_init (num_channels start_number : Z) : res Z := if 1 <? num_channels then Err NotImplementedError else Ok start_number.
Definition counter_get (current : Z) (num_samples : Z) : res (signal * Z) := Ok ([zrange current (current + num_samples)], current + num_samples).

(* ------------------------------------------------------------------ maximum length and Gold sequences *)
(** scipy.signal.max_len_seq(nbits, state, length, taps) (external): a shift register of nbits bits, starting with ones *)
Fixpoint lfsr (taps : list Z) (state : list bool) (n : nat) : list bool * list bool :=
  match n with
  | O => ([], state)
  | S k => match state with
           | [] => ([], [])
           | b :: rest =>
             let feedback := fold_left (fun f t => xorb f (match zget state (t mod zlen state) with Some x => x | None => false end)) taps b in
             let '(seq, st) := lfsr taps (rest ++ [feedback]) k in (b :: seq, st)
           end
  end.
(** sources.py 397-415 (MLS): order, taps, state (None at first, whatever is given); seq * 2 - 1 *)
Record mls := mkMls { ml_order : Z; ml_taps : list Z; ml_state : option (list bool) }.
Definition mls_init (num_channels order : Z) (polynomial : list Z) (state : option (list bool)) : res mls :=
  if 1 <? num_channels then Err NotImplementedError else Ok (mkMls order polynomial None).
Definition mls_get (s : mls) (num_samples : Z) : res (signal * mls) :=
  let st := match ml_state s with Some st => st | None => zrep (ml_order s) true end in
  let '(seq, st) := lfsr (ml_taps s) st (Z.to_nat num_samples) in
  Ok ([map (fun b : bool => (if b then 1 else 0) * 2 - 1) seq], mkMls (ml_order s) (ml_taps s) (Some st)).

(** sources.py 419-427 (preferredSequences) *)
Definition preferred (order : Z) : option (list Z * list Z) :=
  if order =? 5 then Some ([2], [1; 2; 3]) else if order =? 6 then Some ([5], [1; 4; 5]) else if order =? 7 then Some ([4], [4; 5; 6])
  else if order =? 8 then Some ([1; 2; 3; 6; 7], [1; 2; 7]) else if order =? 9 then Some ([5], [3; 5; 6])
  else if order =? 10 then Some ([2; 5; 9], [3; 4; 6; 8; 9]) else if order =? 11 then Some ([9], [3; 6; 9]) else None.
(** np.roll(l, i) *)
Definition roll {A} (l : list A) (i : Z) : list A := let k := (- i) mod zlen l in pyslice l k (zlen l) ++ pyslice l 0 k.
Section Gold.
Context {V : Type} (v0 : V) (vmul : V -> V -> V) (ofZ : Z -> V) (sqrt : V -> V).
Record gold := mkGold { gd_sequences : @signal Z; gd_len : Z; gd_amplitude : list V; gd_idx : Z }.
(** sources.py 429-462 (__init__), including set_power (476-486): one power for all channels, or a list of them.  Orders below
    5 leave seq1 undefined; above 11 the function util.getSmallestCoprime, which does not exist, is called. *)
Definition gold_init (num_channels : Z) (power : list V) (order : Z) : res gold :=
  _ <- passert (num_channels <=? 2 ^ order - 1) ;;
  match preferred order with
  | Some (t1, t2) =>
    m1 <- mls_init 1 order t1 None ;; m2 <- mls_init 1 order t2 None ;;
    r1 <- mls_get m1 (2 ^ order - 1) ;; r2 <- mls_get m2 (2 ^ order - 1) ;;
    let seq1 := match fst r1 with [s] => s | _ => [] end in
    let seq2 := match fst r2 with [s] => s | _ => [] end in
    Ok (mkGold (map (fun i => map (fun p => - (fst p * snd p)) (combine seq1 (roll seq2 i))) (zrange 0 num_channels)) (2 ^ order - 1) (map sqrt power) 0)
  | None => if 11 <? order then (_ <- passert (order mod 2 =? 1) ;; Err AttributeError) else Err UnboundLocalError
  end.
(** multiplication of (C, n) by (1, 1) or (k, 1) *)
Definition scale_rows (sig : @signal V) (amp : list V) : res signal :=
  match amp with
  | [a] => Ok (map (map (fun x => vmul x a)) sig)
  | _ => if zlen sig =? zlen amp then Ok (map (fun p => map (fun x => vmul x (snd p)) (fst p)) (combine sig amp))
         else match sig with [row] => Ok (map (fun a => map (fun x => vmul x a) row) amp) | _ => Err ValueError end
  end.
(** sources.py 464-474 (get_samples) *)
Definition gold_get (s : gold) (num_samples : Z) : res (signal * gold) :=
  block_lengths <- calc_block_sizes num_samples (gd_idx s) (gd_len s) ;;
  r <- copy_blocks (map (map ofZ) (gd_sequences s)) (gd_len s) block_lengths (blank v0 (zlen (gd_sequences s)) num_samples) (gd_idx s) ;;
  out <- scale_rows (fst r) (gd_amplitude s) ;;
  Ok (out, mkGold (gd_sequences s) (gd_len s) (gd_amplitude s) (snd r)).
End Gold.

(* ------------------------------------------------------------------ arrays of sources *)
(** sources.py 31-42 (SourceArray) *)
Section Arrays.
Context {V S A : Type} (get : S -> Z -> res (@signal V * S)).
(** sources.py 32-36 (__init__): the amplitudes are a list (a number stands for [num_sources] copies); amplitude i is the FIRST argument of
    the constructor of the sources ([source_type], with the other arguments applied) *)
Definition source_array_init (source_type : A -> res S) (num_sources : Z) (amplitude : list A) : res (list S) :=
  mapM (fun i => match zget amplitude i with Some a => source_type a | None => Err IndexError end) (zrange 0 num_sources).
(** sources.py 38-42: all sources one after the other, their channels are concatenated *)
Fixpoint get_each (sources : list S) (num_samples : Z) : res (signal * list S) :=
  match sources with
  | [] => Ok ([], [])
  | s :: r => x <- get s num_samples ;; y <- get_each r num_samples ;; Ok (fst x ++ fst y, snd x :: snd y)
  end.
(** np.concatenate refuses an empty list *)
Definition source_array_get (sources : list S) (num_samples : Z) : res (signal * list S) :=
  match sources with [] => Err ValueError | _ => get_each sources num_samples end.
End Arrays.
