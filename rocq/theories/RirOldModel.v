(** Model of the earlier version of the room simulator, src/aspsim/room/roomimpulseresponse.py 366-473, over the real numbers.  It sets the constants of pyroomacoustics itself.
    The library does not call it. *)
Require Import Verif.PyBase.
Require Import Verif.SineModel Verif.TrajModel Verif.RegionModel Verif.RirModel.
Set Implicit Arguments.
Local Open Scope list_scope.
Local Open Scope R_scope.

Section Old.
Context {G : Type}.
(** pra.inverse_sabine *)
Context (inverse_sabine : R -> list R -> res (R * Z)).
(** pra.constants c and frac_delay_length, then as in RirModel: room size, absorption, highest order, sources, microphones, random state *)
Context (compute_rir : R -> Z -> list R -> R -> Z -> list (list R) -> list (list R) -> G -> res (list (list (list R)) * G)).
(** room.measure_rt60() of the room whose impulse responses are given *)
Context (measure_rt60 : list (list (list R)) -> res (list R)).

(** roomimpulseresponse.py 409-449: the loop; [fuel] bounds the number of rounds *)
Fixpoint orig_blocks (fuel : nat) (c : R) (frac_dly_len : Z) (room_size pos_offset : list R) (e_absorbtion : R) (max_order ir_len min_dly : Z) (pos_from pos_to : list (list R))
         (num_computed : Z) (ir : list (list (list R))) (max_trunc_error max_trunc_value : num) (room : option (list (list (list R)))) (rng : G) :
  res (list (list (list R)) * num * num * option (list (list (list R))) * G) :=
  if (num_computed <? zlen pos_to)%Z then
    match fuel with
    | O => Err OutOfFuel
    | S fuel =>
        let block_size := Z.min 500 (zlen pos_to - num_computed) in
        let mics := map (fun p => vadd p pos_offset) (pyslice pos_to num_computed (num_computed + block_size)) in
        x <- compute_rir c frac_dly_len room_size e_absorbtion max_order (map (fun p => vadd p pos_offset) pos_from) mics rng ;;
        ir <- foldM (fun ir tr => foldM (fun ir fs =>
                let ir_len_to_use := (Z.min (zlen (snd fs)) ir_len - min_dly)%Z in
                set_ir ir (fst fs) (num_computed + fst tr) ir_len_to_use (pyslice (snd fs) min_dly (ir_len_to_use + min_dly)))
              ir (enumerate (snd tr))) ir (enumerate (fst x)) ;;
        let t := calc_truncation_info (fst x) ir_len in
        orig_blocks fuel c frac_dly_len room_size pos_offset e_absorbtion max_order ir_len min_dly pos_from pos_to (num_computed + block_size) ir
                    (num_max max_trunc_error (fst t)) (num_max max_trunc_value (snd t)) (Some (fst x)) (snd x)
    end
  else Ok (ir, max_trunc_error, max_trunc_value, room, rng).
(** roomimpulseresponse.py 366-473 (ir_room_image_source_3d_orig).  The metadata has no median and no mean reverberation time; as in RirModel the
    measured values stand for the numbers that are computed from them.  The truncation maxima are only computed if asked for, which changes nothing else. *)
Definition ir_room_image_source_3d_orig (pos_from pos_to : list (list R)) (room_size room_center : list R) (ir_len : Z) (rt60 c : R) (calculate_metadata : bool) (extra_delay : Z) (rng : G) :
  res (list (list (list R)) * option metadata * G) :=
  let ir := map (fun _ => map (fun _ => zrep ir_len 0) pos_to) pos_from in
  let pos_offset := vsub (map (fun x => x / 2) room_size) room_center in
  am <- (if rlt 0 rt60 then am <- inverse_sabine rt60 room_size ;; Ok (fst am, (snd am + 8)%Z) else Ok (9 / 10, 0%Z)) ;;
  if (zlen pos_from =? 0)%Z || (zlen pos_to =? 0)%Z then Err ValueError
  else
    let min_dly := 0%Z in
    let frac_dly_len := (2 * (min_dly + extra_delay) + 1)%Z in
    st <- orig_blocks (length pos_to) c frac_dly_len room_size pos_offset (fst am) (snd am) ir_len min_dly pos_from pos_to 0 ir NegInf NegInf None rng ;;
    let '(ir, max_trunc_error, max_trunc_value, room, rng) := st in
    if calculate_metadata then
      rt <- (if rlt 0 rt60 then
               match room with
               | None => Err UnboundLocalError
               | Some rir => match measure_rt60 rir with Ok [] => Ok Failed | Ok l => Ok (Measured l) | Err ValueError => Ok Failed | Err e => Err e end
               end
             else Ok NoReflections) ;;
      Ok (ir, Some (mkMetadata max_trunc_error max_trunc_value rt (snd am) (fst am)), rng)
    else Ok (ir, None, rng).
End Old.
