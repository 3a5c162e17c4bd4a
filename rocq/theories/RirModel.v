(** Model of src/aspsim/room/roomimpulseresponse.py over the real numbers: the parameters of the room model (65-101), the assembly of
    the simulated impulse responses (215-361), their metadata (476-503) and the high-pass filter (174-180).
    pyroomacoustics and scipy.signal are parameters.  The variant at 366-473 is in RirOldModel. *)
Require Import Verif.PyBase.
Require Import Verif.SineModel Verif.TrajModel Verif.RegionModel.
Set Implicit Arguments.
Local Open Scope list_scope.
Local Open Scope R_scope.

(** A number that may be -np.inf or nan *)
Inductive num := NegInf | Fin (r : R) | NaN.
(** np.max((a, b)) *)
Definition num_max (a b : num) : num :=
  match a, b with
  | NaN, _ => NaN | _, NaN => NaN
  | NegInf, y => y | x, NegInf => x
  | Fin x, Fin y => Fin (Rmax x y)
  end.
Definition log10 (x : R) : R := ln x / ln 10.
(** factor * np.log10(a / b) for nonnegative a and b: -inf if a = 0, nan if both are 0; a positive a over b = 0 does not occur here *)
Definition decibel (factor a b : R) : num :=
  if Req_EM_T b 0 then NaN else if Req_EM_T a 0 then NegInf else Fin (factor * log10 (a / b)).
Definition energy (l : list R) : R := rsum (map (fun x => x ^ 2) l).
(** np.max(np.abs(l)) of an array that is not empty *)
Definition peak (l : list R) : R := fold_right Rmax 0 (map Rabs l).
(** roomimpulseresponse.py 489-495 (calc_truncation_error) *)
Definition calc_truncation_error (rir : list R) (trunc_len : Z) : num :=
  let tot_power := energy rir in
  let trunc_power := energy (pyslice rir trunc_len (zlen rir)) in
  decibel 10 trunc_power tot_power.
(** roomimpulseresponse.py 498-503 (calc_truncation_value) *)
Definition calc_truncation_value (rir : list R) (trunc_len : Z) : num :=
  if (zlen rir <=? trunc_len)%Z then NegInf
  else decibel 20 (peak (pyslice rir trunc_len (zlen rir))) (peak rir).
(** roomimpulseresponse.py 476-486 (calc_truncation_info) *)
Definition trunc_step (trunc_len : Z) (acc : num * num) (single_rir : list R) : num * num :=
  let ir_len := Z.min (zlen single_rir) trunc_len in
  (num_max (fst acc) (calc_truncation_error single_rir ir_len), num_max (snd acc) (calc_truncation_value single_rir ir_len)).
Definition calc_truncation_info (all_rir : list (list (list R))) (trunc_len : Z) : num * num :=
  fold_left (fun acc receiver => fold_left (trunc_step trunc_len) receiver acc) all_rir (NegInf, NegInf).

(** ir[i, j, :n] = new *)
Definition set_ir (ir : list (list (list R))) (i j n : Z) (new : list R) : res (list (list (list R))) :=
  match zget ir i with
  | None => Err IndexError
  | Some row => match zget row j with
                | None => Err IndexError
                | Some l => l' <- pyslice_set l 0 n new ;; Ok (zset ir i (zset row j l'))
                end
  end.
Definition enumerate {A} (l : list A) : list (Z * A) := combine (zrange 0 (zlen l)) l.

(** What room.measure_rt60() gives for the metadata: its values (341-347, where the code stores their minimum, median, mean and maximum), "failed" if it
    raises ValueError (348-352), zero without reflections (353-357) *)
Inductive rt60_info := Measured (l : list R) | Failed | NoReflections.
(** roomimpulseresponse.py 338-359 *)
Record metadata := mkMetadata { md_error : num; md_value : num; md_rt60 : rt60_info; md_order : Z; md_absorption : R }.

Section Rir.
(** the random state of pyroomacoustics (used if randomized_ism) *)
Context {G : Type}.
(** The room model, ShoeBox with its sources and microphones and compute_rir, 287-323: room size, absorption, highest order, the positions of the sources and of the microphones.
    The result room.rir has one list per microphone with one impulse response per source.  It may raise, for instance if a position is outside of the room.
    The sampling rate, randomized_ism and the constants of pyroomacoustics are the same for all calls and part of the parameter. *)
Context (compute_rir : list R -> R -> Z -> list (list R) -> list (list R) -> G -> res (list (list (list R)) * G)).
(** room.measure_rt60() of the room whose impulse responses are given *)
Context (measure_rt60 : list (list (list R)) -> res (list R)).

(** roomimpulseresponse.py 325-329: the loop over the sources *)
Definition store_one (ir_len min_dly to : Z) (ir : list (list (list R))) (x : Z * list R) : res (list (list (list R))) :=
  let '(from_idx, single_rir) := x in
  let ir_len_to_use := (Z.min (zlen single_rir) ir_len - min_dly)%Z in
  set_ir ir from_idx to ir_len_to_use (pyslice single_rir min_dly (ir_len_to_use + min_dly)).
(** roomimpulseresponse.py 324-329 *)
Definition store_receiver (ir_len min_dly num_computed : Z) (ir : list (list (list R))) (x : Z * list (list R)) : res (list (list (list R))) :=
  let '(to_idx, receiver) := x in foldM (store_one ir_len min_dly (num_computed + to_idx)) ir (enumerate receiver).
Definition store_all (ir_len min_dly num_computed : Z) (ir : list (list (list R))) (rir : list (list (list R))) : res (list (list (list R))) :=
  foldM (store_receiver ir_len min_dly num_computed) ir (enumerate rir).

(** What changes in the loop: the impulse responses, the truncation maxima, the last room *)
Record loop := mkLoop { lp_ir : list (list (list R)); lp_error : num; lp_value : num; lp_room : option (list (list (list R))); lp_rng : G }.
(** roomimpulseresponse.py 286-335; [fuel] bounds the number of rounds *)
Fixpoint blocks (fuel : nat) (room_size pos_offset : list R) (e_absorbtion : R) (max_order ir_len min_dly : Z) (pos_src pos_mic : list (list R))
         (dir_type_mic : list string) (num_computed : Z) (st : loop) : res loop :=
  if (num_computed <? zlen pos_mic)%Z then
    match fuel with
    | O => Err OutOfFuel
    | S fuel =>
        let sources := map (fun p => vadd p pos_offset) pos_src in
        let block_size := Z.min 500 (zlen pos_mic - num_computed) in
        if existsb (fun d => negb (String.eqb d "omni")) dir_type_mic then Err NotImplementedError
        else
          let mics := map (fun p => vadd p pos_offset) (pyslice pos_mic num_computed (num_computed + block_size)) in
          x <- compute_rir room_size e_absorbtion max_order sources mics (lp_rng st) ;;
          let '(rir, rng) := x in
          ir <- store_all ir_len min_dly num_computed (lp_ir st) rir ;;
          let info := calc_truncation_info rir ir_len in
          blocks fuel room_size pos_offset e_absorbtion max_order ir_len min_dly pos_src pos_mic dir_type_mic (num_computed + block_size)
                 (mkLoop ir (num_max (lp_error st) (fst info)) (num_max (lp_value st) (snd info)) (Some rir) rng)
    end
  else Ok st.
(** roomimpulseresponse.py 341-357 *)
Definition measured (max_order : Z) (room : option (list (list (list R)))) : res rt60_info :=
  if (0 <? max_order)%Z then
    match room with
    | None => Err UnboundLocalError
    | Some rir => match measure_rt60 rir with Ok [] => Ok Failed | Ok l => Ok (Measured l) | Err ValueError => Ok Failed | Err e => Err e end
    end
  else Ok NoReflections.
(** roomimpulseresponse.py 215-361 (ir_room_image_source_3d).  The truncation maxima are only computed if asked for; computing them always changes nothing else. *)
Definition ir_room_image_source_3d (pos_src pos_mic : list (list R)) (room_size room_center : list R) (ir_len : Z) (e_absorbtion : R) (max_order min_dly : Z)
           (dir_type_mic : list string) (calculate_metadata : bool) (rng : G) : res (list (list (list R)) * option metadata * G) :=
  let ir := map (fun _ => map (fun _ => zrep ir_len 0) pos_mic) pos_src in
  let pos_offset := vsub (map (fun x => x / 2) room_size) room_center in
  st <- blocks (length pos_mic) room_size pos_offset e_absorbtion max_order ir_len min_dly pos_src pos_mic dir_type_mic 0 (mkLoop ir NegInf NegInf None rng) ;;
  if calculate_metadata then
    rt <- measured max_order (lp_room st) ;;
    Ok (lp_ir st, Some (mkMetadata (lp_error st) (lp_value st) rt max_order e_absorbtion), lp_rng st)
  else Ok (lp_ir st, None, lp_rng st).
End Rir.

Section Parameters.
(** pra.inverse_sabine: absorption and order from the reverberation time and the room size *)
Context (inverse_sabine : R -> list R -> res (R * Z)).
(** What calc_rir_parameters sets: the constants c and frac_delay_length of pyroomacoustics, the attributes e_absorbtion, max_order and min_dly *)
Record rir_parameters := mkRirParameters { rq_c : R; rq_absorption : R; rq_order : Z; rq_min_dly : Z; rq_frac_delay : Z }.
(** roomimpulseresponse.py 65-101: calc_rir_parameters; [pairs] are the positions of the source and microphone arrays of mic_src_combos.
    The shortest distance is not used, but np.min of an empty matrix raises. *)
Definition calc_rir_parameters (c : R) (room_size : list R) (rt60 : R) (extra_delay : Z) (pairs : list (list (list R) * list (list R))) : res rir_parameters :=
  am <- (if rlt 0 rt60 then (x <- inverse_sabine rt60 room_size ;; let '(a, m) := x in Ok (a, (m + 8)%Z)) else Ok (9 / 10, 0%Z)) ;;
  _ <- foldM (fun _ pq => if (zlen (fst pq) =? 0)%Z || (zlen (snd pq) =? 0)%Z then Err ValueError else Ok tt) tt pairs ;;
  let min_dly := 0%Z in
  Ok (mkRirParameters c (fst am) (snd am) min_dly (2 * (min_dly + extra_delay) + 1)).
End Parameters.

Section Filter.
(** spsig.butter followed by spsig.sosfiltfilt along one impulse response: cutoff, sampling rate, signal *)
Context (highpass : R -> Z -> list R -> list R).
(** roomimpulseresponse.py 174-180 (filter_rirs) *)
Definition filter_rirs (rir : list (list (list R))) (sr : Z) (cutoff : R) : list (list (list R)) :=
  let pad := sr in
  let rir_padded := map (map (fun r => zrep pad 0 ++ r ++ zrep pad 0)) rir in
  let filtered_rir := map (map (highpass cutoff sr)) rir_padded in
  map (map (fun r => pyslice r pad (- pad))) filtered_rir.
End Filter.
