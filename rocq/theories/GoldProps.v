(** Properties of maximum length and Gold sequences: C30, C56, C57. *)
Require Import Verif.PyBase Verif.PyLemmas Verif.UtilProps Verif.SourceModel Verif.SourceSpec Verif.SourceProofs.
Set Implicit Arguments.
Local Open Scope list_scope.
Local Open Scope Z_scope.
Ltac Zify.zify_post_hook ::= Z.div_mod_to_equations.

Lemma zrange_shift a n : map (fun k => a + k) (zrange 0 n) = zrange a (a + n).
Proof. apply zget_ext. intros i. rewrite zget_map, !zget_zrange. replace (a + n - a) with (n - 0) by lia. destruct (_ && _)%bool; simpl; auto. Qed.
(** the register holds the bits from t on *)
Definition window (order : Z) (x : Z -> bool) (t : Z) : list bool := map (fun k => x (t + k)) (zrange 0 order).
Lemma fold_xor_ext taps (f g : Z -> bool) b : (forall t, In t taps -> f t = g t) -> fold_left (fun b t => xorb b (f t)) taps b = fold_left (fun b t => xorb b (g t)) taps b.
Proof. revert b. induction taps as [|t taps IH]; intros b H; cbn [fold_left]; auto. rewrite H by (left; auto). apply IH. intros; apply H; right; auto. Qed.
Lemma lfsr_window order taps x : 1 <= order -> Forall (fun t => 0 <= t < order) taps -> register order taps x -> forall n t, 0 <= t ->
  lfsr taps (window order x t) n = (map (fun k => x (t + k)) (zrange 0 (Z.of_nat n)), window order x (t + Z.of_nat n)).
Proof.
  intros Ho Ht [_ R]. induction n as [|n IH]; intros t Hn; cbn [lfsr]; [rewrite Z.add_0_r; auto|].
  assert (Hw : window order x t = x t :: map (fun k => x (t + k)) (zrange 1 order)). { unfold window. rewrite zrange_cons by lia. cbn [map]. rewrite Z.add_0_r. auto. }
  set (w := window order x t) in *. rewrite Hw at 1.
  assert (Hl : zlen w = order) by (unfold w, window; rewrite zlen_map, zlen_zrange; lia).
  set (fb := fold_left _ taps (x t)).
  assert (Hf : fb = x (t + order)).
  { unfold fb. rewrite R by lia. apply fold_xor_ext. intros u Hu. rewrite Hl. rewrite Forall_forall in Ht. specialize (Ht u Hu). rewrite Z.mod_small by lia. unfold w, window. rewrite zget_map, zget_zrange. replace (_ && _)%bool with true by lia. cbn [option_map]. rewrite Z.add_0_l. auto. }
  assert (Hw2 : map (fun k => x (t + k)) (zrange 1 order) ++ [fb] = window order x (t + 1)).
  { unfold window. rewrite Hf. change [x (t + order)] with (map (fun k => x (t + k)) [order]). rewrite <- map_app, <- zrange_snoc by lia. replace (order + 1) with (1 + order) by lia. rewrite <- zrange_shift, map_map. apply map_ext. intros k. f_equal. lia. }
  rewrite Hw2, IH by lia. f_equal; [|f_equal; lia]. rewrite (@zrange_cons 0 (Z.of_nat (S n))) by lia. cbn [map]. rewrite Z.add_0_r. f_equal.
  replace (Z.of_nat (S n)) with (1 + Z.of_nat n) by lia. change (0 + 1) with 1. rewrite <- zrange_shift, map_map. apply map_ext. intros k. f_equal. lia.
Qed.
Lemma window_start order taps x : register order taps x -> window order x 0 = zrep order true.
Proof. intros [H _]. apply zget_ext. intros i. unfold window. rewrite zget_map, zget_zrange, zget_zrep, Z.sub_0_r. destruct ((0 <=? i) && (i <? order))%bool eqn:Q; auto. cbn [option_map]. rewrite H by lia. auto. Qed.
(** every register has its bits *)
Lemma register_exists order taps : 1 <= order -> Forall (fun t => 0 <= t < order) taps -> exists x, register order taps x.
Proof.
  intros Ho Ht. set (next := fun st : list bool => match st with [] => [] | b :: rest => rest ++ [fold_left (fun f t => xorb f (match zget st t with Some y => y | None => false end)) taps b] end).
  set (state := fun n => Nat.iter n next (zrep order true)). set (x := fun n => match zget (state (Z.to_nat n)) 0 with Some b => b | None => false end).
  assert (L : forall n, zlen (state n) = order).
  { induction n; [change (state 0%nat) with (zrep order true); rewrite zlen_zrep; lia|]. change (state (S n)) with (next (state n)). unfold next. destruct (state n) as [|b r] eqn:Q; [rewrite zlen_nil in IHn; lia|]. rewrite zlen_app. rewrite zlen_cons in IHn. change (zlen [_]) with 1. lia. }
  assert (K : forall k n, 0 <= k < order -> zget (state n) k = Some (x (Z.of_nat n + k))).
  { enough (X : forall m n, Z.of_nat m < order -> zget (state n) (Z.of_nat m) = Some (x (Z.of_nat n + Z.of_nat m))).
    { intros k n Hk. specialize (X (Z.to_nat k) n). rewrite Z2Nat.id in X by lia. apply X. lia. }
    induction m as [|m IH]; intros n Hm.
    - unfold x. rewrite Z.add_0_r, Nat2Z.id. destruct (@zget_in_range _ (state n) 0) as (b & E); [rewrite L; lia|]. change (Z.of_nat 0) with 0. rewrite E. auto.
    - replace (Z.of_nat n + Z.of_nat (S m)) with (Z.of_nat (S n) + Z.of_nat m) by lia. rewrite <- IH by lia. change (state (S n)) with (next (state n)). pose proof (L n) as Ln. unfold next. destruct (state n) as [|b r]; [rewrite zlen_nil in Ln; lia|].
      rewrite zget_app, zget_cons. rewrite zlen_cons in Ln. destruct (Z.eqb_spec (Z.of_nat (S m)) 0); [lia|]. destruct (Z.ltb_spec (Z.of_nat m) (zlen r)); [f_equal; lia|lia]. }
  exists x. split.
  - intros n Hn. pose proof (K n 0%nat Hn) as E. rewrite Z.add_0_l in E. change (state 0%nat) with (zrep order true) in E. rewrite zget_zrep in E. replace (_ && _)%bool with true in E by lia. congruence.
  - intros n Hn. pose proof (K (order - 1) (S (Z.to_nat n)) ltac:(lia)) as E. replace (Z.of_nat (S (Z.to_nat n)) + (order - 1)) with (n + order) in E by lia. change (state (S (Z.to_nat n))) with (next (state (Z.to_nat n))) in E.
    pose proof (L (Z.to_nat n)) as Ln. assert (Hall : forall t, 0 <= t < order -> zget (state (Z.to_nat n)) t = Some (x (n + t))) by (intros t H; rewrite K by auto; do 2 f_equal; lia).
    unfold next in E. destruct (state (Z.to_nat n)) as [|b r] eqn:Q; [rewrite zlen_nil in Ln; lia|]. rewrite zlen_cons in Ln. rewrite zget_app in E. destruct (Z.ltb_spec (order - 1) (zlen r)); [lia|]. replace (order - 1 - zlen r) with 0 in E by lia. cbn in E. injection E as E. rewrite <- E.
    pose proof (Hall 0 ltac:(lia)) as H0. cbn in H0. injection H0 as H0. rewrite Z.add_0_r in H0. rewrite <- H0. apply fold_xor_ext. intros t Hin. rewrite Forall_forall in Ht. rewrite Hall by auto. auto.
Qed.

(* ------------------------------------------------------------------ maximum length sequences *)
(** an MLS source has one channel *)
Theorem C30_mls_channels channels order taps state : 1 < channels -> mls_init channels order taps state = Err NotImplementedError.
Proof. intros H. unfold mls_init. replace (1 <? channels) with true by lia. reflexivity. Qed.
(** A maximum length sequence source plays the bits of its register as 1 and -1, whatever state it is given *)
Theorem C30_mls order taps state s x : 1 <= order -> Forall (fun t => 0 <= t < order) taps -> mls_init 1 order taps state = Ok s -> register order taps x ->
  plays mls_get 1 (fun _ n => sign (x n)) s.
Proof.
  intros Ho Ht H R. inversion H; subst. apply plays_inv with (I := fun s t => 0 <= t /\ ml_order s = order /\ ml_taps s = taps /\ (match ml_state s with Some st => st | None => zrep order true end) = window order x t).
  - intros s t n (T & E1 & E2 & E3) Hn. unfold mls_get. rewrite E1, E3, E2. rewrite (lfsr_window Ho Ht R) by auto. rewrite Z2Nat.id by auto. exists (mkMls order taps (Some (window order x (t + n)))). split; [|cbn; split; [lia|auto]]. do 2 f_equal.
    unfold piece. change (zrange 0 1) with [0]. cbn [map]. f_equal. rewrite map_map. apply map_ext. intros k. destruct (x (t + k)); auto.
  - cbn. split; [lia|]. split; auto. split; auto. symmetry. eapply window_start; eauto.
Qed.

(* ------------------------------------------------------------------ C30 *)
Lemma zget_roll {A} (l : list A) i k : 0 <= k < zlen l -> zget (roll l i) k = zget l ((k - i) mod zlen l).
Proof.
  intros Hk. unfold roll. set (n := zlen l) in *. set (m := (- i) mod n). assert (Hm : 0 <= m < n) by (unfold m; lia).
  rewrite zget_app, zlen_pyslice_in by lia. fold n. assert (Hmod : (k - i) mod n = (k + m) mod n) by (unfold m; rewrite Zplus_mod_idemp_r; f_equal; lia). rewrite Hmod.
  destruct (Z.ltb_spec k (n - m)).
  - rewrite zget_pyslice_in by lia. replace (_ && _)%bool with true by lia. f_equal. rewrite Z.mod_small by lia. lia.
  - rewrite zget_pyslice_in by lia. replace (_ && _)%bool with true by lia. f_equal. assert ((k + m) mod n = k + m - n); [|lia]. symmetry. apply Z.mod_unique with 1; lia.
Qed.
Lemma preferred_ok order t1 t2 : preferred order = Some (t1, t2) -> 5 <= order <= 11 /\ Forall (fun t => 0 <= t < order) t1 /\ Forall (fun t => 0 <= t < order) t2.
Proof.
  unfold preferred. repeat match goal with |- context [order =? ?k] => destruct (Z.eqb_spec order k) end; intros H; inversion H; subst; (split; [lia|]; split; repeat constructor; lia).
Qed.
Section Gold.
Context {V : Type} (v0 : V) (vmul : V -> V -> V) (ofZ : Z -> V) (sqrt : V -> V).
(** the state of a generator when it is made *)
Lemma gold_made channels power order t1 t2 x1 x2 : preferred order = Some (t1, t2) -> 0 <= channels <= 2 ^ order - 1 -> register order t1 x1 -> register order t2 x2 ->
  31 <= 2 ^ order - 1 /\ gold_init sqrt channels power order = Ok (mkGold (grid channels (2 ^ order - 1) (fun c k => - (sign (x1 k) * sign (x2 ((k - c) mod (2 ^ order - 1)))))) (2 ^ order - 1) (map sqrt power) 0).
Proof.
  intros Hp HC R1 R2. set (L := 2 ^ order - 1) in *. destruct (@preferred_ok order t1 t2 Hp) as (Ho & T1 & T2). assert (HL : 31 <= L) by (unfold L; pose proof (Z.pow_le_mono_r 2 5 order ltac:(lia) ltac:(lia)); lia).
  split; [exact HL|]. set (seq1 := map (fun k => sign (x1 k)) (zrange 0 L)). set (seq2 := map (fun k => sign (x2 k)) (zrange 0 L)).
  set (sg := fun c k => - (sign (x1 k) * sign (x2 ((k - c) mod L)))).
  unfold gold_init. unfold passert. destruct (Z.leb_spec channels (2 ^ order - 1)); [|lia]. cbn [bind]. rewrite Hp. cbn [mls_init Z.ltb Z.compare bind].
    assert (G : forall taps x, Forall (fun t => 0 <= t < order) taps -> register order taps x -> exists s', mls_get (mkMls order taps None) L = Ok ([map (fun k => sign (x k)) (zrange 0 L)], s')).
    { intros taps x Ht R. destruct (@C30_mls order taps None (mkMls order taps None) x) with (ns := [L]) as (s' & E); auto; [lia|repeat constructor; lia|]. cbn [request_all cut] in E. destruct (mls_get (mkMls order taps None) L) as [[o s2]|] eqn:Q; [|discriminate].
      cbn [bind fst snd] in E. inversion E; subst. eexists. reflexivity. }
    fold L. change (mls_init 1 order t1 None) with (@Ok mls (mkMls order t1 None)). change (mls_init 1 order t2 None) with (@Ok mls (mkMls order t2 None)). cbn [bind].
    destruct (G _ _ T1 R1) as (s1 & ->), (G _ _ T2 R2) as (s2 & ->). cbn [bind fst]. fold seq1 seq2. do 2 f_equal. unfold grid. apply map_ext. intros c.
    assert (Z1 : zlen seq1 = L) by (unfold seq1; apply zlen_zmap; lia). assert (Z2 : zlen seq2 = L) by (unfold seq2; apply zlen_zmap; lia).
    assert (Zr : zlen (roll seq2 c) = L). { unfold roll. rewrite Z2. rewrite zlen_app, !zlen_pyslice_in by lia. lia. }
    apply zget_ext. intros k. rewrite zget_map, zget_combine. unfold sg. rewrite zget_zmap. destruct ((0 <=? k) && (k <? L))%bool eqn:Q.
    - rewrite zget_roll by lia. rewrite Z2. unfold seq1, seq2. rewrite !zget_zmap. rewrite Q. replace (_ && _)%bool with true by lia. auto.
    - unfold seq1. rewrite zget_zmap, Q. auto.
Qed.
(** C30: channel c is the product of the first sequence and the second one shifted by c, with sign and amplitude, again and again *)
Theorem C30_gold channels power order t1 t2 x1 x2 : preferred order = Some (t1, t2) -> 0 <= channels <= 2 ^ order - 1 -> (zlen power = 1 \/ zlen power = channels) ->
  register order t1 x1 -> register order t2 x2 ->
  let L := 2 ^ order - 1 in
  exists s, gold_init sqrt channels power order = Ok s /\
    plays (gold_get v0 vmul ofZ) channels (fun c n => vmul (ofZ (- (sign (x1 (n mod L)) * sign (x2 ((n mod L - c) mod L))))) (one_or_each v0 (map sqrt power) c)) s.
Proof.
  intros Hp HC Hl R1 R2 L. destruct (@gold_made channels power order t1 t2 x1 x2 Hp HC R1 R2) as (HL & E0). fold L in HL, E0. set (sg := fun c k => - (sign (x1 k) * sign (x2 ((k - c) mod L)))) in E0.
  eexists. split; [exact E0|].
  apply plays_inv with (I := fun s t => 0 <= t /\ s = mkGold (grid channels L sg) L (map sqrt power) (t mod L)); [|split; [lia|rewrite Z.mod_0_l by lia; auto]].
  intros s t n [Ht ->] Hn. unfold gold_get. cbn [gd_idx gd_len gd_sequences gd_amplitude].
  assert (Hz : zlen (grid channels L sg) = channels) by (unfold grid; rewrite zlen_map, zlen_zrange; lia). rewrite Hz.
  destruct (@copy_cyclic' V channels L (fun c k => ofZ (sg c k)) v0 (t mod L) n (map (map ofZ) (grid channels L sg))) as (bl & E1 & E2); [unfold grid; rewrite map_map; apply map_ext; intros c; rewrite map_map; auto|lia|lia|lia|lia|].
  rewrite E1. cbn [bind]. rewrite E2. cbn [bind fst snd]. rewrite Zplus_mod_idemp_l.
  assert (E3 : scale_rows vmul (grid channels n (fun c k => ofZ (sg c ((t mod L + k) mod L)))) (map sqrt power) =
     Ok (piece channels (fun c n => vmul (ofZ (- (sign (x1 (n mod L)) * sign (x2 ((n mod L - c) mod L))))) (one_or_each v0 (map sqrt power) c)) t n)).
  { assert (Hg : forall a, map (map (fun x => vmul x a)) (grid channels n (fun c k => ofZ (sg c ((t mod L + k) mod L)))) = piece channels (fun c n => vmul (ofZ (- (sign (x1 (n mod L)) * sign (x2 ((n mod L - c) mod L))))) a) t n).
    { intros a. unfold piece, grid. rewrite map_map. apply map_ext. intros c. rewrite map_map. apply map_ext. intros k. unfold sg. rewrite Zplus_mod_idemp_l. auto. }
    assert (Hg2 : zlen (map sqrt power) = channels -> map (fun p => map (fun x => vmul x (snd p)) (fst p)) (combine (grid channels n (fun c k => ofZ (sg c ((t mod L + k) mod L)))) (map sqrt power)) =
       piece channels (fun c n => vmul (ofZ (- (sign (x1 (n mod L)) * sign (x2 ((n mod L - c) mod L))))) (match zget (map sqrt power) c with Some a => a | None => v0 end)) t n).
    { intros Hlen. apply zget_ext. intros c. unfold piece, grid. rewrite !zget_map, zget_combine, zget_map, zget_zrange, Z.sub_0_r. destruct ((0 <=? c) && (c <? channels))%bool eqn:Q; auto. cbn [option_map]. rewrite Z.add_0_l.
      destruct (@zget_in_range _ (map sqrt power) c) as (a & Ha); [lia|]. rewrite Ha. cbn [option_map fst snd]. f_equal. rewrite map_map. apply map_ext. intros k. unfold sg. rewrite Zplus_mod_idemp_l. auto. }
    assert (Hz2 : forall h : Z -> Z -> V, zlen (grid channels n h) = channels) by (intros h; unfold grid; rewrite zlen_map, zlen_zrange; lia).
    unfold scale_rows, one_or_each. rewrite Hz2. destruct power as [|p [|p2 pr]]; cbn [map].
    - rewrite zlen_nil in Hl. replace (channels =? zlen (@nil V)) with true by (rewrite zlen_nil; lia). f_equal. apply Hg2. cbn [map]. rewrite zlen_nil; lia.
    - rewrite Hg. auto.
    - assert (Hl2 : zlen (p :: p2 :: pr) = channels) by (rewrite !zlen_cons in *; pose proof (zlen_nonneg pr); lia). change (sqrt p :: sqrt p2 :: map sqrt pr) with (map sqrt (p :: p2 :: pr)). rewrite zlen_map, Hl2, Z.eqb_refl. f_equal. apply Hg2. rewrite zlen_map. auto. }
  rewrite E3. cbn [bind]. eexists. split; [reflexivity|]. split; [lia|auto].
Qed.
(** C30: a wrong number of powers is only noticed when samples are requested *)
Theorem C30_gold_powers channels power order t1 t2 x1 x2 : preferred order = Some (t1, t2) -> 2 <= channels <= 2 ^ order - 1 -> zlen power <> 1 -> zlen power <> channels ->
  register order t1 x1 -> register order t2 x2 -> exists s, gold_init sqrt channels power order = Ok s /\ forall n, 0 <= n -> gold_get v0 vmul ofZ s n = Err ValueError.
Proof.
  intros Hp HC N1 N2 R1 R2. destruct (@gold_made channels power order t1 t2 x1 x2 Hp ltac:(lia) R1 R2) as (HL & E0). set (L := 2 ^ order - 1) in *. set (sg := fun c k => - (sign (x1 k) * sign (x2 ((k - c) mod L)))) in E0.
  eexists. split; [exact E0|]. intros n Hn. unfold gold_get. cbn [gd_idx gd_len gd_sequences gd_amplitude].
  assert (Hz : zlen (grid channels L sg) = channels) by (unfold grid; rewrite zlen_map, zlen_zrange; lia). rewrite Hz.
  destruct (@copy_cyclic' V channels L (fun c k => ofZ (sg c k)) v0 0 n (map (map ofZ) (grid channels L sg))) as (bl & E1 & E2); [unfold grid; rewrite map_map; apply map_ext; intros c; rewrite map_map; auto|lia|lia|lia|lia|].
  rewrite E1. cbn [bind]. rewrite E2. cbn [bind fst snd]. unfold scale_rows.
  match goal with |- context [zlen ?g =? _] => assert (Hz2 : zlen g = channels) by (unfold grid; rewrite zlen_map, zlen_zrange; lia); set (rows := g) in * end.
  assert (Hp2 : zlen (map sqrt power) = zlen power) by apply zlen_map. destruct (map sqrt power) as [|a [|b r]] eqn:Q.
  - rewrite Hz2, Hp2. replace (channels =? zlen power) with false by lia. destruct rows as [|x [|y r]]; [reflexivity| |reflexivity]. rewrite zlen_cons, zlen_nil in Hz2. lia.
  - exfalso. rewrite zlen_cons, zlen_nil in Hp2. lia.
  - rewrite Hz2, Hp2. replace (channels =? zlen power) with false by lia. destruct rows as [|x [|y r2]]; [reflexivity| |reflexivity]. rewrite zlen_cons, zlen_nil in Hz2. lia.
Qed.
Theorem C30_errors channels power order : (2 ^ order - 1 < channels -> gold_init sqrt channels power order = Err AssertionError) /\
  (channels <= 2 ^ order - 1 -> (order < 5 -> gold_init sqrt channels power order = Err UnboundLocalError) /\
     (11 < order -> gold_init sqrt channels power order = Err (if order mod 2 =? 1 then AttributeError else AssertionError))).
Proof.
  unfold gold_init. unfold passert at 1 3 5. split; [intros H; destruct (Z.leb_spec channels (2 ^ order - 1)); [lia|auto]|]. intros H. destruct (Z.leb_spec channels (2 ^ order - 1)); [|lia]. cbn [bind].
  assert (P : order < 5 \/ 11 < order -> preferred order = None). { intros K. unfold preferred. repeat match goal with |- context [order =? ?k] => destruct (Z.eqb_spec order k); [lia|] end. auto. }
  split; intros K; rewrite P by auto; destruct (Z.ltb_spec 11 order); try lia; auto. unfold passert. destruct (order mod 2 =? 1); auto.
Qed.
End Gold.
(** the bits of the registers of the table, order 5 *)
Example C30_example : exists x1 x2, register 5 [2] x1 /\ register 5 [1; 2; 3] x2 /\ preferred 5 = Some ([2], [1; 2; 3]) /\
  exists s s', gold_init (fun x => x) 2 [3; 4] 5 = Ok s /\ gold_get 0 Z.mul (fun z => z) s 7 = Ok ([[-3; -3; -3; -3; -3; -3; -3]; [4; -4; -4; -4; -4; 4; -4]], s').
Proof.
  destruct (@register_exists 5 [2]) as (x1 & R1); [lia|repeat constructor; lia|]. destruct (@register_exists 5 [1; 2; 3]) as (x2 & R2); [lia|repeat constructor; lia|].
  exists x1, x2. do 3 (split; [auto|]). eexists _, _. split; vm_compute; reflexivity.
Qed.
Print Assumptions C30_mls.
Print Assumptions C30_gold.
Print Assumptions C30_mls_channels.
Print Assumptions C30_errors.
Print Assumptions C30_gold_powers.

(* ------------------------------------------------------------------ C56 *)
(** how many steps until the register holds ones again; 0 if that takes more than [fuel] steps *)
Fixpoint return_time (taps : list Z) (order : Z) (state : list bool) (fuel : nat) : Z :=
  match fuel with
  | O => 0
  | S k => let st := snd (lfsr taps state 1) in if forallb (fun b => b) st then 1 else let r := return_time taps order st k in if r =? 0 then 0 else 1 + r
  end.
Lemma return_time_spec taps order x : 1 <= order -> Forall (fun t => 0 <= t < order) taps -> register order taps x -> forall fuel t r, 0 <= t -> return_time taps order (window order x t) fuel = r -> r <> 0 ->
  0 < r /\ window order x (t + r) = zrep order true /\ forall j, 0 < j < r -> window order x (t + j) <> zrep order true.
Proof.
  intros Ho Ht R. assert (A : forall l, forallb (fun b : bool => b) l = true <-> l = zrep (zlen l) true).
  { induction l as [|b l IH]; [split; auto|]. rewrite zlen_cons. replace (zrep (1 + zlen l) true) with (true :: zrep (zlen l) true) by (unfold zrep; replace (Z.to_nat (1 + zlen l)) with (S (Z.to_nat (zlen l))) by (pose proof (zlen_nonneg l); lia); auto).
    cbn [forallb]. rewrite andb_true_iff, IH. split; [intros [-> E]; congruence|intros E; inversion E; rewrite <- H1; auto]. }
  assert (L : forall t, zlen (window order x t) = order) by (intros t; unfold window; rewrite zlen_map, zlen_zrange; lia).
  induction fuel as [|fuel IH]; intros t r Hn; cbn [return_time]; [intros <-; lia|]. rewrite (lfsr_window Ho Ht R) by auto. cbn [snd]. change (Z.of_nat 1) with 1.
  destruct (forallb _ (window order x (t + 1))) eqn:Q.
  - intros <- _. apply A in Q. rewrite L in Q. split; [lia|]. split; auto. intros j Hj. lia.
  - assert (Q' : window order x (t + 1) <> zrep order true) by (intros E; rewrite <- (L (t + 1)) in E at 2; apply A in E; congruence).
    destruct (Z.eqb_spec (return_time taps order (window order x (t + 1)) fuel) 0) as [E|E]; [intros <-; lia|]. intros <- _. destruct (IH (t + 1) _ ltac:(lia) eq_refl E) as (P1 & P2 & P3).
    split; [lia|]. split; [rewrite <- P2; f_equal; lia|]. intros j Hj. destruct (Z.eq_dec j 1) as [->|]; [auto|]. replace (t + j) with (t + 1 + (j - 1)) by lia. apply P3. lia.
Qed.
(** C56: for all orders of the table, both sequences have the period 2^order - 1 and no shorter one *)
Theorem C56_period order t1 t2 taps x : preferred order = Some (t1, t2) -> taps = t1 \/ taps = t2 -> register order taps x ->
  (forall n, 0 <= n -> x (n + (2 ^ order - 1)) = x n) /\ forall p, 0 < p < 2 ^ order - 1 -> exists n, 0 <= n /\ x (n + p) <> x n.
Proof.
  intros Hp Htaps R. destruct (@preferred_ok order t1 t2 Hp) as (Ho & T1 & T2).
  assert (Ht : Forall (fun t => 0 <= t < order) taps) by (destruct Htaps; subst; auto).
  assert (E : return_time taps order (zrep order true) (Z.to_nat (2 ^ order)) = 2 ^ order - 1).
  { clear R Ho T1 T2 Ht. revert Hp. unfold preferred. repeat match goal with |- context [order =? ?k] => destruct (Z.eqb_spec order k) as [->|_] end; intros H; inversion H; subst; clear H; destruct Htaps; subst; vm_compute; reflexivity. }
  rewrite <- (window_start R) in E. assert (HL : 31 <= 2 ^ order - 1) by (pose proof (Z.pow_le_mono_r 2 5 order ltac:(lia) ltac:(lia)); lia).
  destruct (@return_time_spec taps order x ltac:(lia) Ht R _ 0 _ ltac:(lia) E ltac:(lia)) as (_ & W & N). set (L := 2 ^ order - 1) in *. rewrite Z.add_0_l in W.
  assert (K : forall q, 0 <= q -> (forall k, 0 <= k < order -> x (q + k) = true) -> forall n, 0 <= n -> x (n + q) = x n).
  { intros q Hq Hk n. destruct R as [R1 R2]. intros Hn. revert n Hn. enough (X : forall m n, 0 <= n < Z.of_nat m -> x (n + q) = x n) by (intros n Hn; apply (X (S (Z.to_nat n))); lia).
    induction m as [|m IH]; intros n Hn; [lia|]. destruct (Z.lt_ge_cases n order).
    - rewrite (R1 n) by lia. replace (n + q) with (q + n) by lia. apply Hk. lia.
    - replace n with (n - order + order) at 2 by lia. replace (n + q) with (n - order + q + order) by lia. rewrite !R2 by lia.
      rewrite IH by lia. clear - IH Ht H Hn Hq. generalize (x (n - order)). induction Ht as [|t taps Ht _ IHt]; intros b; cbn [fold_left]; auto. replace (n - order + q + t) with (n - order + t + q) by lia. rewrite IH by lia. apply IHt. }
  split.
  - apply K; [lia|]. intros k Hk. assert (G : zget (window order x L) k = Some true) by (rewrite W, zget_zrep; replace (_ && _)%bool with true by lia; auto). unfold window in G. rewrite zget_map, zget_zrange in G. replace (_ && _)%bool with true in G by lia. cbn [option_map] in G. rewrite Z.add_0_l in G. congruence.
  - intros p Hpp. destruct (existsb (fun n => negb (Bool.eqb (x (n + p)) (x n))) (zrange 0 order)) eqn:Q.
    + apply existsb_exists in Q as (n & Hn & Q). apply In_zrange in Hn. exists n. split; [lia|]. intros E2. rewrite E2, eqb_reflx in Q. discriminate.
    + exfalso. apply (N p); [lia|]. rewrite Z.add_0_l. rewrite <- (window_start R). unfold window. apply map_ext_in. intros k Hk.
      destruct (Bool.eqb (x (k + p)) (x k)) eqn:B; [apply eqb_prop in B; rewrite Z.add_0_l, <- B; f_equal; lia|]. exfalso. apply not_true_iff_false in Q. apply Q. apply existsb_exists. exists k. rewrite B. auto.
Qed.
Example C56_example : exists x, register 8 [1; 2; 7] x /\ preferred 8 = Some ([1; 2; 3; 6; 7], [1; 2; 7]).
Proof. destruct (@register_exists 8 [1; 2; 7]) as (x & R); [lia|repeat constructor; lia|]. eauto. Qed.
Print Assumptions C56_period.

(* ------------------------------------------------------------------ C57 *)
(** the correlation of the two base sequences over one period, the second one shifted by c *)
Definition correlation (L : Z) (x1 x2 : Z -> bool) (c : Z) : Z := total (map (fun k => sign (x1 k) * sign (x2 ((k - c) mod L))) (zrange 0 L)).
(** the three values a preferred pair may have *)
Definition preferred_values (order v : Z) : Prop := let t := 1 + 2 ^ ((order + 2) / 2) in v = -1 \/ v = - t \/ v = t - 2.
Fixpoint dot (a b : list bool) (acc : Z) : Z := match a, b with x :: a, y :: b => dot a b (if Bool.eqb x y then Z.succ acc else Z.pred acc) | _, _ => acc end.
Fixpoint dots (a b : list bool) (n : nat) : list Z := match n with O => [] | S k => dot a b 0 :: dots a (match b with [] => [] | _ :: b => b end) k end.
Lemma dot_eq (f g : Z -> bool) n : forall b acc, (forall k, 0 <= k < Z.of_nat n -> zget b k = Some (g k)) -> dot (map f (zrange 0 (Z.of_nat n))) b acc = acc + total (map (fun k => sign (f k) * sign (g k)) (zrange 0 (Z.of_nat n))).
Proof.
  revert f g. induction n as [|n IH]; intros f g b acc H; [change (zrange 0 (Z.of_nat 0)) with (@nil Z); cbn [map dot]; change (total []) with 0; lia|]. rewrite (@zrange_cons 0 (Z.of_nat (S n))) by lia. change (0 + 1) with 1. replace (Z.of_nat (S n)) with (1 + Z.of_nat n) in * by lia. rewrite <- zrange_shift. cbn [map]. rewrite !map_map.
  pose proof (H 0 ltac:(lia)) as H0. destruct b as [|y b]; [rewrite zget_nil in H0; discriminate|]. cbn in H0. injection H0 as Hy. cbn [dot].
  rewrite (IH (fun k => f (1 + k)) (fun k => g (1 + k))).
  - subst y. change (total (?a :: ?l)) with (a + total l). destruct (f 0), (g 0); cbn [Bool.eqb sign]; lia.
  - intros k Hk. rewrite <- (H (1 + k)) by lia. rewrite zget_cons. destruct (Z.eqb_spec (1 + k) 0); [lia|]. f_equal. lia.
Qed.
Lemma dots_spec L (x1 x2 : Z -> bool) : 1 <= L -> forall m, 0 <= m < L ->
  zget (dots (map x1 (zrange 0 L)) (map x2 (zrange 0 L) ++ map x2 (zrange 0 L)) (Z.to_nat L)) m = Some (correlation L x1 x2 (- m)).
Proof.
  intros HL. set (a := map x1 (zrange 0 L)). set (b := map x2 (zrange 0 L)).
  assert (K : forall n i c, 0 <= i -> i + Z.of_nat n <= L -> (forall k, 0 <= k < 2 * L - i -> zget c k = zget (b ++ b) (i + k)) -> forall m, 0 <= m < Z.of_nat n -> zget (dots a c n) m = Some (correlation L x1 x2 (- (i + m)))).
  { induction n as [|n IH]; intros i c Hi Hn Hc m Hm; [lia|]. cbn [dots]. rewrite zget_cons. destruct (Z.eqb_spec m 0) as [->|Hm0].
    - f_equal. unfold a. replace L with (Z.of_nat (Z.to_nat L)) at 1 by lia. rewrite (dot_eq x1 (fun k => x2 ((k + i) mod L))).
      + unfold correlation. rewrite Z2Nat.id by lia. rewrite Z.add_0_l. f_equal. apply map_ext. intros k. do 3 f_equal. f_equal. lia.
      + intros k Hk. rewrite Hc by lia. rewrite zget_app. assert (Zb : zlen b = L) by (unfold b; rewrite zlen_map, zlen_zrange; lia). rewrite Zb. destruct (Z.ltb_spec (i + k) L).
        * unfold b. rewrite zget_zmap; match goal with |- context [if ?b then _ else _] => replace b with true by lia end; do 2 f_equal. rewrite Z.mod_small; lia.
        * unfold b. rewrite zget_zmap; match goal with |- context [if ?b then _ else _] => replace b with true by lia end; do 2 f_equal. apply Z.mod_unique with 1; lia.
    - replace (i + m) with (i + 1 + (m - 1)) by lia. apply IH; [lia|lia| |lia]. intros k Hk. replace (i + 1 + k) with (i + (1 + k)) by lia. rewrite <- Hc by lia. destruct c; [rewrite !zget_nil; auto|]. rewrite zget_cons. destruct (Z.eqb_spec (1 + k) 0); [lia|]. f_equal. lia. }
  intros m Hm. rewrite (K (Z.to_nat L) 0 (b ++ b)); [do 3 f_equal; lia|lia|lia|intros; f_equal; lia|lia].
Qed.
Definition all_correlations (order : Z) (t1 t2 : list Z) : list Z :=
  let n := Z.to_nat (2 ^ order - 1) in let s2 := fst (lfsr t2 (zrep order true) n) in dots (fst (lfsr t1 (zrep order true) n)) (s2 ++ s2) n.
Lemma all_correlations_spec order t1 t2 x1 x2 c : preferred order = Some (t1, t2) -> register order t1 x1 -> register order t2 x2 -> In (correlation (2 ^ order - 1) x1 x2 c) (all_correlations order t1 t2).
Proof.
  intros Hp R1 R2. destruct (@preferred_ok order t1 t2 Hp) as (Ho & T1 & T2). unfold all_correlations. assert (HL : 31 <= 2 ^ order - 1) by (pose proof (Z.pow_le_mono_r 2 5 order ltac:(lia) ltac:(lia)); lia). set (L := 2 ^ order - 1) in *.
  rewrite <- (window_start R1) at 1. rewrite <- (window_start R2). rewrite (@lfsr_window order t1 x1), (@lfsr_window order t2 x2) by (auto; lia). cbn [fst]. rewrite Z2Nat.id by lia.
  rewrite (map_ext (fun k => x1 (0 + k)) x1), (map_ext (fun k => x2 (0 + k)) x2) by (intros; f_equal; lia).
  assert (E : correlation L x1 x2 c = correlation L x1 x2 (- ((- c) mod L))). { unfold correlation. f_equal. apply map_ext. intros k. do 3 f_equal. replace (k - - ((- c) mod L)) with (k + (- c) mod L) by lia. rewrite Zplus_mod_idemp_r; auto. }
  rewrite E. eapply zget_In. apply dots_spec; lia.
Qed.
(** C57: for the orders 5, 6, 7, 9 and 11 the sequences are a preferred pair: their correlation has only three values *)
Theorem C57_correlation_partial order t1 t2 x1 x2 c : preferred order = Some (t1, t2) -> order <> 8 -> order <> 10 -> register order t1 x1 -> register order t2 x2 -> preferred_values order (correlation (2 ^ order - 1) x1 x2 c).
Proof.
  intros Hp H8 H10 R1 R2. pose proof (@all_correlations_spec _ _ _ _ _ c Hp R1 R2) as H.
  assert (F : forallb (fun v => let t := 1 + 2 ^ ((order + 2) / 2) in (v =? -1) || (v =? - t) || (v =? t - 2)) (all_correlations order t1 t2) = true).
  { clear R1 R2 H. revert Hp. unfold preferred. repeat match goal with |- context [order =? ?k] => destruct (Z.eqb_spec order k) as [->|_] end; intros H; inversion H; subst; clear H; try congruence; vm_compute; reflexivity. }
  rewrite forallb_forall in F. specialize (F _ H). cbv zeta in F. unfold preferred_values. cbv zeta. destruct (Z.eqb_spec (correlation (2 ^ order - 1) x1 x2 c) (-1)); auto. destruct (Z.eqb_spec (correlation (2 ^ order - 1) x1 x2 c) (- (1 + 2 ^ ((order + 2) / 2)))); auto. cbn [orb] in F. right. right. lia.
Qed.
(** for the orders 8 and 10 it is not: the correlation takes other values, for order 10 as large as 97, where 65 is the bound of a preferred pair *)
Theorem C57_correlation_refuted : exists t1 t2 x1 x2 c, preferred 10 = Some (t1, t2) /\ register 10 t1 x1 /\ register 10 t2 x2 /\ correlation (2 ^ 10 - 1) x1 x2 c = -97 /\ ~ preferred_values 10 (correlation (2 ^ 10 - 1) x1 x2 c).
Proof.
  exists [2; 5; 9], [3; 4; 6; 8; 9]. destruct (@register_exists 10 [2; 5; 9]) as (x1 & R1); [lia|repeat constructor; lia|]. destruct (@register_exists 10 [3; 4; 6; 8; 9]) as (x2 & R2); [lia|repeat constructor; lia|].
  assert (F : In (-97) (all_correlations 10 [2; 5; 9] [3; 4; 6; 8; 9])).
  { assert (X : existsb (Z.eqb (-97)) (all_correlations 10 [2; 5; 9] [3; 4; 6; 8; 9]) = true) by (vm_compute; reflexivity). apply existsb_exists in X as (v & X & Y). apply Z.eqb_eq in Y. subst. auto. }
  apply In_zget in F as (m & Hm & F). unfold all_correlations in F, Hm. rewrite <- (window_start R1) in F at 1. rewrite <- (window_start R2) in F. rewrite (@lfsr_window 10 [2; 5; 9] x1), (@lfsr_window 10 [3; 4; 6; 8; 9] x2) in F; auto; try lia; try (repeat constructor; lia). cbn [fst] in F. rewrite Z2Nat.id in F by lia.
  assert (Hm' : 0 <= m < 2 ^ 10 - 1).
  { assert (D : forall n a b, zlen (dots a b n) = Z.of_nat n) by (clear; induction n; intros a b; cbn [dots]; [auto|rewrite zlen_cons, IHn; lia]). rewrite D in Hm. lia. }
  rewrite (map_ext (fun k => x1 (0 + k)) x1), (map_ext (fun k => x2 (0 + k)) x2) in F by (intros; f_equal; lia).
  rewrite (@dots_spec (2 ^ 10 - 1) x1 x2 ltac:(lia) m Hm') in F. assert (F' : correlation (2 ^ 10 - 1) x1 x2 (- m) = -97) by congruence. clear F. rename F' into F. exists x1, x2, (- m). split; [reflexivity|]. split; auto. split; auto. split; auto. rewrite F. unfold preferred_values. change (1 + 2 ^ ((10 + 2) / 2)) with 65. cbv zeta. lia.
Qed.
Example C57_example : exists x1 x2, register 5 [2] x1 /\ register 5 [1; 2; 3] x2 /\ preferred 5 = Some ([2], [1; 2; 3]).
Proof. destruct (@register_exists 5 [2]) as (x1 & R1); [lia|repeat constructor; lia|]. destruct (@register_exists 5 [1; 2; 3]) as (x2 & R2); [lia|repeat constructor; lia|]. eauto. Qed.
Print Assumptions C57_correlation_partial.
Print Assumptions C57_correlation_refuted.
(** concrete cases of C30 *)
Example C30_mls_channels_meets : mls_init 2 5 [2] None = Err NotImplementedError.
Proof. apply C30_mls_channels. lia. Qed.
Example C30_mls_meets : exists s x, mls_init 1 5 [2] None = Ok s /\ register 5 [2] x /\ plays mls_get 1 (fun _ n => sign (x n)) s.
Proof.
  destruct (@register_exists 5 [2]) as (x & R); [lia|repeat constructor; lia|]. eexists _, x. split; [reflexivity|]. split; [exact R|].
  apply (@C30_mls 5 [2] None _ x); [lia|repeat constructor; lia|reflexivity|exact R].
Qed.
Example C30_gold_meets : preferred 5 = Some ([2], [1; 2; 3]) /\ 0 <= 2 <= 2 ^ 5 - 1 /\ zlen [3; 4] = 2.
Proof. repeat split; try reflexivity; lia. Qed.
Example C30_gold_powers_meets : exists x1 x2, preferred 5 = Some ([2], [1; 2; 3]) /\ zlen [1; 2; 3] <> 1 /\ zlen [1; 2; 3] <> 2 /\ register 5 [2] x1 /\ register 5 [1; 2; 3] x2.
Proof. destruct C30_example as (x1 & x2 & R1 & R2 & P & _). exists x1, x2. split; [exact P|]. split; [discriminate|]. split; [discriminate|]. split; [exact R1|exact R2]. Qed.
Example C30_errors_meets : gold_init (fun x : Z => x) 40 [1] 5 = Err AssertionError /\ gold_init (fun x : Z => x) 2 [1] 4 = Err UnboundLocalError /\ gold_init (fun x : Z => x) 2 [1] 12 = Err AssertionError /\ gold_init (fun x : Z => x) 2 [1] 13 = Err AttributeError.
Proof. repeat split; vm_compute; reflexivity. Qed.
