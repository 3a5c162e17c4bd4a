(** C113: the two versions of the room simulator agree. *)
Require Import Verif.PyBase Verif.PyLemmas.
Require Import Verif.SineModel Verif.TrajModel Verif.RegionModel Verif.RirModel Verif.RirOldModel.
Require Import Lra.
Set Implicit Arguments.
Local Open Scope list_scope.
Local Open Scope R_scope.

Section Versions.
Context {G : Type}.
Variable inverse_sabine : R -> list R -> res (R * Z).
Variable compute_rir : R -> Z -> list R -> R -> Z -> list (list R) -> list (list R) -> G -> res (list (list (list R)) * G).
Variable measure_rt60 : list (list (list R)) -> res (list R).
(** orders are not negative *)
Hypothesis orders : forall rt60 size a m, inverse_sabine rt60 size = Ok (a, m) -> (0 <= m)%Z.

Lemma foldM_same {A B} (f g : A -> B -> res A) l : (forall a b, f a b = g a b) -> forall a, foldM f a l = foldM g a l.
Proof. intros H. induction l as [|b l IH]; intros a; cbn [foldM]; auto. rewrite H. destruct (g a b); cbn [bind]; auto. Qed.
Lemma orig_blocks_eq c frac room_size pos_offset e_absorbtion max_order ir_len min_dly pos_from pos_to dirs : Forall (fun d => d = "omni"%string) dirs -> forall fuel num ir er va room rng,
  orig_blocks compute_rir fuel c frac room_size pos_offset e_absorbtion max_order ir_len min_dly pos_from pos_to num ir er va room rng =
  (st <- blocks (compute_rir c frac) fuel room_size pos_offset e_absorbtion max_order ir_len min_dly pos_from pos_to dirs num (mkLoop ir er va room rng) ;; Ok (lp_ir st, lp_error st, lp_value st, lp_room st, lp_rng st)).
Proof.
  intros HO. assert (NX : existsb (fun d => negb (String.eqb d "omni")) dirs = false). { induction HO as [|d l -> _ IH]; cbn [existsb]; auto. }
  induction fuel as [|fuel IH]; intros num ir er va room rng; cbn [orig_blocks blocks]; destruct (num <? zlen pos_to)%Z; try reflexivity. rewrite NX. cbn [lp_rng lp_ir lp_error lp_value].
  destruct (compute_rir _ _ _ _ _ _ _ _) as [[rirs g]|e]; cbn [bind fst snd]; [|reflexivity].
  unfold store_all. rewrite (foldM_same (store_receiver ir_len min_dly num) (fun ir tr => foldM (fun ir fs => let n := (Z.min (zlen (snd fs)) ir_len - min_dly)%Z in set_ir ir (fst fs) (num + fst tr) n (pyslice (snd fs) min_dly (n + min_dly))) ir (enumerate (snd tr)))).
  - destruct (foldM _ ir (enumerate rirs)) as [ir2|e]; cbn [bind]; [|reflexivity]. apply IH.
  - intros a [k l]. cbn [store_receiver fst snd]. apply foldM_same. intros b [s r]. reflexivity.
Qed.
(** C113.  For microphones without directivity the earlier version gives what the current one gives with the parameters that calc_rir_parameters computes for
    the two arrays: the same impulse responses, metadata and random numbers, and the same errors. *)
Theorem C113_versions pos_from pos_to room_size room_center ir_len rt60 c md extra_delay rng dirs : Forall (fun d => d = "omni"%string) dirs ->
  ir_room_image_source_3d_orig inverse_sabine compute_rir measure_rt60 pos_from pos_to room_size room_center ir_len rt60 c md extra_delay rng =
  (q <- calc_rir_parameters inverse_sabine c room_size rt60 extra_delay [(pos_from, pos_to)] ;;
   ir_room_image_source_3d (compute_rir (rq_c q) (rq_frac_delay q)) measure_rt60 pos_from pos_to room_size room_center ir_len (rq_absorption q) (rq_order q) (rq_min_dly q) dirs md rng).
Proof.
  intros HO. unfold ir_room_image_source_3d_orig, calc_rir_parameters. destruct (rlt 0 rt60) eqn:Ert.
  - destruct (inverse_sabine rt60 room_size) as [[a m]|e] eqn:Es; cbn [bind fst snd]; [|reflexivity]. apply orders in Es. cbn [foldM fst snd]. destruct ((zlen pos_from =? 0)%Z || (zlen pos_to =? 0)%Z); cbn [bind]; [reflexivity|].
    cbn [rq_c rq_absorption rq_order rq_min_dly rq_frac_delay]. unfold ir_room_image_source_3d. rewrite (orig_blocks_eq _ _ _ _ _ _ _ _ _ _ HO). destruct (blocks _ _ _ _ _ _ _ _ _ _ _ _ _) as [st|e]; cbn [bind]; [|reflexivity].
    unfold measured. replace (0 <? m + 8)%Z with true by lia. reflexivity.
  - cbn [bind fst snd foldM]. destruct ((zlen pos_from =? 0)%Z || (zlen pos_to =? 0)%Z); cbn [bind]; [reflexivity|].
    cbn [rq_c rq_absorption rq_order rq_min_dly rq_frac_delay]. unfold ir_room_image_source_3d. rewrite (orig_blocks_eq _ _ _ _ _ _ _ _ _ _ HO). destruct (blocks _ _ _ _ _ _ _ _ _ _ _ _ _) as [st|e]; cbn [bind]; reflexivity.
Qed.
End Versions.

(** a room model that delays by the distance in the first coordinate *)
Definition two_walls (c : R) (frac : Z) (size : list R) (absorption : R) (order : Z) (sources mics : list (list R)) (g : Z) : res (list (list (list R)) * Z) :=
  Ok (map (fun m => map (fun s => [c; IZR frac; absorption; IZR order; nth 0 m 0 - nth 0 s 0]) sources) mics, (g + 1)%Z).
Definition some_sabine (rt60 : R) (size : list R) : res (R * Z) := Ok (rt60 / 2, 3%Z).
Example C113_example : (forall rt60 size a m, some_sabine rt60 size = Ok (a, m) -> (0 <= m)%Z) /\ Forall (fun d => d = "omni"%string) ["omni"; "omni"]%string /\
  ir_room_image_source_3d_orig some_sabine two_walls (fun _ => Err ValueError) [[1; 0; 0]] [[3; 0; 0]; [5; 0; 0]] [10; 8; 4] [0; 0; 0] 6 (1 / 2) 343 false 10 7%Z =
    Ok ([[[343; 21; 1 / 4; 11; 2; 0]; [343; 21; 1 / 4; 11; 4; 0]]], None, 8%Z).
Proof.
  split; [intros rt60 size a m H; injection H as _ <-; lia|]. split; [repeat constructor|]. unfold ir_room_image_source_3d_orig. replace (rlt 0 (1 / 2)) with true by (unfold rlt; destruct (Rlt_dec 0 (1 / 2)); [reflexivity|lra]).
  transitivity (Ok ([[[343; 21; 1 / 2 / 2; 11; 3 + (10 / 2 - 0) - (1 + (10 / 2 - 0)); 0]; [343; 21; 1 / 2 / 2; 11; 5 + (10 / 2 - 0) - (1 + (10 / 2 - 0)); 0]]], @None metadata, 8%Z));
    [cbv -[Rplus Rminus Rdiv IZR num_max calc_truncation_info]; reflexivity|]. replace (1 / 2 / 2) with (1 / 4) by lra. replace (3 + (10 / 2 - 0) - (1 + (10 / 2 - 0))) with 2 by lra. replace (5 + (10 / 2 - 0) - (1 + (10 / 2 - 0))) with 4 by lra. reflexivity.
Qed.
Print Assumptions C113_versions.
