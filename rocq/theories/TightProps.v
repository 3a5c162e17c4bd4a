(** C30, C75 and C89: for which orders Gold sequences exist, counters that start at zero, and the desired sample rate zero. *)
Require Import Verif.PyBase Verif.PyLemmas Verif.LoggerModel Verif.LoggerSpec Verif.LoggerProofs Verif.DiagSpec Verif.DiagCtorModel Verif.DiagCtorProofs Verif.StateValueProps Verif.SourceModel Verif.GoldProps Verif.FreqModel.
Set Implicit Arguments.
Local Open Scope Z_scope.

(** C30.  A Gold sequence generator can be made exactly for the orders 5 to 11, with at most as many channels as the sequences have samples. *)
Theorem C30_orders V (vmul : V -> V -> V) (ofZ : Z -> V) (sqrt : V -> V) channels power order : 0 <= channels -> (exists s, gold_init sqrt channels power order = Ok s) <-> 5 <= order <= 11 /\ channels <= 2 ^ order - 1.
Proof.
  intros HC. split.
  - intros (s & H). destruct (C30_errors vmul ofZ sqrt channels power order) as [A B]. destruct (Z_lt_le_dec (2 ^ order - 1) channels) as [Q|Q]; [rewrite A in H by exact Q; discriminate|]. destruct (B Q) as [B1 B2].
    destruct (Z_lt_le_dec order 5) as [P|P]; [rewrite B1 in H by exact P; discriminate|]. destruct (Z_lt_le_dec 11 order) as [P'|P']; [rewrite B2 in H by exact P'; discriminate|]. lia.
  - intros [HO HL]. assert (P : exists t1 t2, preferred order = Some (t1, t2)).
    { assert (K : order = 5 \/ order = 6 \/ order = 7 \/ order = 8 \/ order = 9 \/ order = 10 \/ order = 11) by lia. repeat (destruct K as [->|K]; [cbn; eauto|]). subst. cbn. eauto. }
    destruct P as (t1 & t2 & P). destruct (preferred_ok _ P) as (_ & T1 & T2). destruct (@register_exists order t1) as (x1 & R1); [lia|exact T1|]. destruct (@register_exists order t2) as (x2 & R2); [lia|exact T2|].
    destruct (@gold_made V vmul ofZ sqrt channels power order t1 t2 x1 x2 P) as (_ & G); auto. eauto.
Qed.
(** C75.  A counter made from a frequency that starts at zero saves at 0 and the multiples of the frequency; the announced number of values is right exactly if the frequency does not divide the
    number of samples, and otherwise one too small. *)
Theorem C75_from_zero f tot : 1 <= f -> 0 <= tot -> exists v, ivc_from_frequency f tot true = Ok v /\ iv_list v = unit_ivs (0 :: multiples f tot) /\
  covered (iv_list v) = iv_num v + (if tot mod f =? 0 then 1 else 0).
Proof.
  intros Hf Ht. unfold ivc_from_frequency. destruct (Z.eqb_spec f 0); [lia|]. destruct (Z.ltb_spec f 0); [lia|]. cbv zeta. eexists. split; [reflexivity|].
  assert (L : (tot + 1 + f - 1) / f = tot / f + 1) by (replace (tot + 1 + f - 1) with (tot + 1 * f) by lia; rewrite Z.div_add by lia; lia).
  assert (Q : zrange_step 0 (tot + 1) f = 0 :: multiples f tot).
  { rewrite step_map with (n := tot / f + 1) by (rewrite <- L; f_equal; lia). assert (0 <= tot / f) by (apply Z.div_pos; lia). rewrite zrange_cons by lia. cbn [map]. f_equal; [lia|]. unfold multiples. replace (0 + 1) with 1 by lia. apply map_ext. intros; lia. }
  assert (Q' : zrange_step (0 - 1) tot f = map (fun e => e - 1) (0 :: multiples f tot)).
  { rewrite <- Q. rewrite !step_map with (n := tot / f + 1) by (rewrite <- L; f_equal; lia). rewrite map_map. apply map_ext. intros; lia. }
  rewrite ivc_make_list, Q, Q'. assert (U : combine (map (fun e => e - 1) (0 :: multiples f tot)) (0 :: multiples f tot) = unit_ivs (0 :: multiples f tot)).
  { unfold unit_ivs. rewrite <- (map_id (0 :: multiples f tot)) at 2. rewrite combine_map. reflexivity. }
  rewrite U. split; [reflexivity|]. rewrite covered_unit, zlen_cons, zlen_multiples by auto. unfold unit_ivs, ivc_make. cbn [map iv_next iv_num]. rewrite ceil_div by lia.
  pose proof (Z.div_mod tot f ltac:(lia)). pose proof (Z.mod_pos_bound tot f ltac:(lia)). destruct (Z.eqb_spec (tot mod f) 0).
  - assert ((tot + f - 1) / f = tot / f); [symmetry; apply Z.div_unique with (r := f - 1); lia|lia].
  - assert ((tot + f - 1) / f = tot / f + 1); [symmetry; apply Z.div_unique with (r := tot mod f - 1); lia|lia].
Qed.
Example C30_orders_meets : 0 <= 2 /\ exists s, gold_init (fun x : Z => x) 2 [1] 9 = Ok s.
Proof. split; [lia|]. apply (C30_orders Z.mul (fun z => z)); [lia|]. split; [lia|]. vm_compute. discriminate. Qed.
Example C75_from_zero_meets : 1 <= 4 /\ 0 <= 10 /\ exists v w, ivc_from_frequency 4 10 true = Ok v /\ iv_list v = [(-1, 0); (3, 4); (7, 8)] /\ iv_num v = 3 /\ ivc_from_frequency 5 10 true = Ok w /\ iv_list w = [(-1, 0); (4, 5); (9, 10)] /\ iv_num w = 2.
Proof. split; [lia|]. split; [lia|]. eexists. eexists. split; [reflexivity|]. split; [reflexivity|]. split; [reflexivity|]. split; [reflexivity|]. split; reflexivity. Qed.
(** C89.  A desired sample rate of zero raises a ZeroDivisionError. *)
Theorem C89_zero_rate X (resample_poly : X -> Z -> Z -> X) simplify_ratio channels audio_sr n : 0 < audio_sr -> load_audio_file resample_poly simplify_ratio (Multi channels) audio_sr (Some 0) n = Err ZeroDivisionError.
Proof. intros H. unfold load_audio_file. replace (0 =? audio_sr) with false by lia. replace (0 <? audio_sr) with true by lia. reflexivity. Qed.
Example C89_zero_rate_meets : 0 < 48000 /\ load_audio_file (fun (x : list Z) _ _ => x) (fun a b => (a, b)) (Multi [[1]; [2]]) 48000 (Some 0) (Some 1) = Err ZeroDivisionError.
Proof. split; [lia|reflexivity]. Qed.
Print Assumptions C89_zero_rate.
Print Assumptions C30_orders.
Print Assumptions C75_from_zero.
