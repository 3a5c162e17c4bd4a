(** Properties of the sources: C24, C25, C26, C28, C29, C30. *)
Require Import Verif.PyBase Verif.PyLemmas Verif.PyStr Verif.UtilModel Verif.UtilProps Verif.SourceModel Verif.SourceSpec Verif.SourceProofs.
Set Implicit Arguments.
Local Open Scope string_scope.
Local Open Scope list_scope.
Local Open Scope Z_scope.
Ltac Zify.zify_post_hook ::= Z.div_mod_to_equations.

(** What a source that plays f gives in total does not depend on how the samples are requested *)
Theorem playing_division {V S} (get : S -> Z -> res (list (list V) * S)) channels f s ns outs s' c : plays get channels f s -> Forall (fun n => 0 <= n) ns ->
  request_all get s ns = Ok (outs, s') -> 0 <= c < channels -> channel outs c = map (f c) (zrange 0 (total ns)).
Proof.
  intros P H E Hc. destruct (P ns H) as (s2 & E2). rewrite E in E2. inversion E2; subst. rewrite channel_cut by auto. apply map_ext. intros k. auto.
Qed.
Print Assumptions playing_division.

(* ------------------------------------------------------------------ C24 *)
Section Sequences.
Context {V : Type} (v0 : V) (vmul : V -> V -> V).
(** C24: sample n is the audio at n mod its length, times the amplitude *)
Theorem C24_loop audio L amp : 1 <= L -> rectangular audio L ->
  plays (sequence_get v0 vmul) (zlen audio) (fun c n => vmul (sample v0 audio c (n mod L)) amp) (sequence_init audio L amp "repeat").
Proof.
  intros HL R. apply plays_inv with (I := fun s t => 0 <= t /\ s = mkSequence audio L amp "repeat" (t mod L)).
  - intros s t n [Ht ->] Hn. unfold sequence_get. cbn [sq_end_mode sq_current sq_tot sq_audio sq_amp]. rewrite String.eqb_refl.
    destruct (@copy_cyclic' V (zlen audio) L (sample v0 audio) v0 (t mod L) n audio) as (bl & E1 & E2); [apply grid_of; auto|apply zlen_nonneg|lia|lia|lia|]. rewrite E1. cbn [bind].
    rewrite E2. cbn [bind fst snd]. rewrite Zplus_mod_idemp_l. eexists. split; [|split; [lia|reflexivity]]. do 2 f_equal.
    rewrite piece_grid. unfold grid. rewrite map_map. apply map_ext. intros c. rewrite map_map. apply map_ext. intros k. rewrite Zplus_mod_idemp_l. auto.
  - split; [lia|]. unfold sequence_init. rewrite Z.mod_0_l by lia. auto.
Qed.

(* ------------------------------------------------------------------ C25 *)
(** C25, what holds: while fewer samples than the sequence has are requested in total, the sequence itself is played, and a request
    that reaches the end or goes beyond it raises StopIteration.  The amplitude is not applied. *)
Theorem C25_once_partial audio L amp ns n outs s : rectangular audio L -> Forall (fun n => 0 <= n) ns -> 0 <= n ->
  total ns < L -> request_all (sequence_get v0 vmul) (sequence_init audio L amp "raise") ns = Ok (outs, s) ->
  outs = cut (zlen audio) (sample v0 audio) 0 ns /\
  (L <= total ns + n -> sequence_get v0 vmul s n = Err StopIteration) /\
  (total ns + n < L -> exists s', sequence_get v0 vmul s n = Ok (piece (zlen audio) (sample v0 audio) (total ns) n, s')).
Proof.
  intros R Hns Hn Ht E.
  assert (K : forall s t n, 0 <= t -> 0 <= n -> s = mkSequence audio L amp "raise" t -> (L <= t + n -> sequence_get v0 vmul s n = Err StopIteration) /\
     (t + n < L -> sequence_get v0 vmul s n = Ok (piece (zlen audio) (sample v0 audio) t n, mkSequence audio L amp "raise" (t + n)))).
  { clear - R. intros s t n Ht Hn ->. unfold sequence_get. cbn [sq_end_mode sq_current sq_tot sq_audio sq_amp]. change ("raise" =? "repeat")%string with false. change ("raise" =? "zeros")%string with false. change ("raise" =? "raise")%string with true. cbn iota.
    destruct (Z.leb_spec L (t + n)); split; intros; try lia; auto. do 2 f_equal. transitivity (cols (grid (zlen audio) L (sample v0 audio)) t (t + n)); [f_equal; apply grid_of; auto|]. rewrite piece_grid. unfold cols, grid. rewrite map_map. apply map_ext. intros c.
    apply zget_ext. intros k. rewrite zget_pyslice_in by (rewrite ?zlen_zmap; lia). rewrite !zget_zmap. replace (t + n - t) with n by lia. destruct ((0 <=? k) && (k <? n))%bool eqn:Q; auto. replace (_ && _)%bool with true by lia. auto. }
  assert (M : forall ns t s, Forall (fun n => 0 <= n) ns -> 0 <= t -> t + total ns < L -> s = mkSequence audio L amp "raise" t ->
     request_all (sequence_get v0 vmul) s ns = Ok (cut (zlen audio) (sample v0 audio) t ns, mkSequence audio L amp "raise" (t + total ns))).
  { clear - K. induction ns as [|n ns IH]; intros t s H Ht Hl ->; cbn [request_all cut].
    - change (total []) with 0. rewrite Z.add_0_r. auto.
    - inversion H; subst. change (total (n :: ns)) with (n + total ns) in *. assert (0 <= total ns) by (clear - H3; induction H3; [simpl; lia|change (0 <= x + total l); lia]).
      destruct (K _ t n Ht H2 eq_refl) as [_ K2]. rewrite K2 by lia. cbn [bind fst snd]. rewrite (IH (t + n)) by (auto; lia). cbn [bind fst snd]. rewrite Z.add_assoc. auto. }
  unfold sequence_init in E. rewrite (M ns 0) in E by (auto; lia). inversion E; subst. split; auto. assert (0 <= total ns) by (clear - Hns; induction Hns; [simpl; lia|change (0 <= x + total l); lia]).
  rewrite Z.add_0_l. destruct (K _ (total ns) n ltac:(lia) Hn eq_refl) as [K1 K2]. split; auto. intros X. eauto.
Qed.
(** as long as the end is not reached, requests succeed *)
Theorem C25_no_error audio L amp ns : rectangular audio L -> Forall (fun n => 0 <= n) ns -> total ns < L -> exists outs s, request_all (sequence_get v0 vmul) (sequence_init audio L amp "raise") ns = Ok (outs, s).
Proof.
  intros R. induction ns as [|n ns IH] using rev_ind; intros H Ht; [simpl; eauto|]. apply Forall_app in H as [H1 H2]. inversion H2; subst. rewrite total_app in Ht. change (total [n]) with (n + 0) in Ht.
  assert (X : 0 <= total ns) by (clear - H1; induction H1; [simpl; lia|change (0 <= x + total l); lia]).
  destruct (IH H1 ltac:(lia)) as (outs & s & E). destruct (@C25_once_partial audio L amp ns n outs s R H1 H3 ltac:(lia) E) as (_ & _ & K). destruct (K ltac:(lia)) as (s' & E').
  assert (A : forall ns s0 outs s x s', request_all (sequence_get v0 vmul) s0 ns = Ok (outs, s) -> sequence_get v0 vmul s n = Ok (x, s') -> request_all (sequence_get v0 vmul) s0 (ns ++ [n]) = Ok (outs ++ [x], s')).
  { clear. induction ns as [|m ns IH]; intros s0 outs s x s' E E'; cbn [request_all app] in *; [inversion E; subst; rewrite E'; auto|]. destruct (sequence_get v0 vmul s0 m) as [[y s1]|] eqn:Q; [|discriminate]. cbn [bind fst snd] in *.
    destruct (request_all _ s1 ns) as [[o s2]|] eqn:Q2; [|discriminate]. cbn [bind fst snd] in E. inversion E; subst. rewrite (IH _ _ _ _ _ Q2 E'). auto. }
  rewrite (A _ _ _ _ _ _ E E'). eauto.
Qed.
(** the other end modes *)
Theorem C25_modes audio L amp n : sequence_get v0 vmul (sequence_init audio L amp "zeros") n = Err NotImplementedError /\
  forall mode, mode <> "repeat" -> mode <> "zeros" -> mode <> "raise" -> sequence_get v0 vmul (sequence_init audio L amp mode) n = Err ValueError.
Proof.
  split; [reflexivity|]. intros mode H1 H2 H3. unfold sequence_get, sequence_init. cbn [sq_end_mode]. destruct (String.eqb_spec mode "repeat"), (String.eqb_spec mode "zeros"), (String.eqb_spec mode "raise"); congruence.
Qed.
End Sequences.
(** C25 is false twice: asking for exactly the whole sequence raises, and the amplitude is ignored *)
Theorem C25_end_refuted : exists (audio : signal) L, rectangular audio L /\ sequence_get 0 Z.mul (sequence_init audio L 1 "raise") L = Err StopIteration.
Proof. exists [[1; 2; 3]], 3. split; [intros row [<-|[]]; reflexivity|reflexivity]. Qed.
Theorem C25_amplitude_refuted : exists (audio : signal) L amp n out s, rectangular audio L /\ sequence_get 0 Z.mul (sequence_init audio L amp "raise") n = Ok (out, s) /\
  out <> piece (zlen audio) (fun c k => sample 0 audio c k * amp) 0 n.
Proof. exists [[1; 2; 3]], 3, 5, 2. eexists _, _. split; [intros row [<-|[]]; reflexivity|]. split; [vm_compute; reflexivity|]. intros H. vm_compute in H. discriminate H. Qed.
Example C24_example : rectangular [[1; 2; 3]; [4; 5; 6]] 3 /\
  (exists s, request_all (sequence_get 0 Z.mul) (sequence_init [[1; 2; 3]; [4; 5; 6]] 3 10 "repeat") [2; 0; 5] = Ok ([[[10; 20]; [40; 50]]; [[]; []]; [[30; 10; 20; 30; 10]; [60; 40; 50; 60; 40]]], s)).
Proof. split; [intros row [<-|[<-|[]]]; reflexivity|]. eexists. vm_compute. reflexivity. Qed.
Example C25_example : rectangular [[1; 2; 3]] 3 /\ (exists outs s, request_all (sequence_get 0 Z.mul) (sequence_init [[1; 2; 3]] 3 1 "raise") [1; 1] = Ok (outs, s) /\ outs = [[[1]]; [[2]]] /\ sequence_get 0 Z.mul s 1 = Err StopIteration).
Proof. split; [intros row [<-|[]]; reflexivity|]. eexists _, _. vm_compute. auto. Qed.
Print Assumptions C24_loop.
Print Assumptions C25_once_partial.
Print Assumptions C25_no_error.
Print Assumptions C25_modes.
Print Assumptions C25_end_refuted.
Print Assumptions C25_amplitude_refuted.

(* ------------------------------------------------------------------ C26 *)
Section Pulses.
Context {V : Type} (v0 : V).
Lemma pulse_row_eq a p : forall n i, pulse_row v0 n (mkPulse a p i) = (map (fun k => if negb (p =? 0) && ((i + k) mod p =? 0) then a else v0) (zrange 0 (Z.of_nat n)), mkPulse a p (i + Z.of_nat n)).
Proof.
  induction n as [|n IH]; intros i; cbn [pulse_row]; [rewrite Z.add_0_r; auto|]. unfold pulse_sample. cbn [pt_amplitude pt_period pt_idx]. rewrite IH. rewrite (@zrange_cons 0 (Z.of_nat (S n))) by lia. cbn [map]. rewrite Z.add_0_r.
  f_equal; [|f_equal; lia]. f_equal. replace (zrange (0 + 1) (Z.of_nat (S n))) with (map (fun k => 1 + k) (zrange 0 (Z.of_nat n))).
  - rewrite map_map. apply map_ext. intros k. rewrite Z.add_assoc. auto.
  - apply zget_ext. intros j. rewrite zget_map, !zget_zrange. replace (Z.of_nat (S n) - (0 + 1)) with (Z.of_nat n - 0) by lia. destruct (_ && _)%bool; simpl; auto.
Qed.
(** C26: channel c has its amplitude where the time minus its delay is a multiple of its period, and 0 elsewhere *)
Theorem C26_pulses channels amplitude period delay s : 0 <= channels -> pulse_init channels amplitude period delay = Ok s ->
  (forall c p, zget period c = Some p -> p <> 0) ->
  exists f, plays (pulse_get v0) channels f s /\
    forall c n a p d, zget amplitude c = Some a -> zget period c = Some p -> zget delay c = Some d -> ((p | n - d) -> f c n = a) /\ (~ (p | n - d) -> f c n = v0).
Proof.
  intros Hc0 H Hp. unfold pulse_init in H. apply bind_ok in H as (? & H1 & H). apply bind_ok in H as (? & H2 & H). apply bind_ok in H as (? & H3 & H). inversion H; subst; clear H.
  unfold passert in *. destruct (Z.eqb_spec (zlen amplitude) channels) as [L1|]; [|discriminate]. destruct (Z.eqb_spec (zlen period) channels) as [L2|]; [|discriminate]. destruct (Z.eqb_spec (zlen delay) channels) as [L3|]; [|discriminate]. clear H1 H2 H3.
  set (am c := match zget amplitude c with Some a => a | None => v0 end). set (pe c := match zget period c with Some a => a | None => 0 end). set (de c := match zget delay c with Some a => a | None => 0 end).
  exists (fun c n => if negb (pe c =? 0) && ((n - de c) mod pe c =? 0) then am c else v0). split.
  - apply plays_inv with (I := fun s t => 0 <= t /\ s = map (fun c => mkPulse (am c) (pe c) (t - de c)) (zrange 0 channels)).
    + intros s t n [Ht ->] Hn. unfold pulse_get. eexists. split; [|split; [lia|reflexivity]]. rewrite !map_map. do 2 f_equal.
      * unfold piece. apply map_ext. intros c. rewrite pulse_row_eq, Z2Nat.id by lia. cbn [fst]. apply map_ext. intros k. replace (t + k - de c) with (t - de c + k) by lia. auto.
      * apply map_ext. intros c. rewrite pulse_row_eq, Z2Nat.id by lia. cbn [snd]. f_equal. lia.
    + split; [lia|]. apply zget_ext. intros c. rewrite !zget_map, zget_zrange, Z.sub_0_r.
      assert (Z3 : forall {A B} (x : list A) (y : list B) c, zget (combine x y) c = match zget x c, zget y c with Some a, Some b => Some (a, b) | _, _ => None end).
      { clear. intros A B. induction x as [|a x IH]; intros y c; simpl; [rewrite !zget_nil; auto|]. destruct y as [|b y]; [rewrite !zget_nil; destruct (zget (a :: x) c); auto|]. rewrite !zget_cons. destruct (c =? 0); auto. }
      rewrite !Z3. unfold am, pe, de. destruct (zget amplitude c) eqn:Q1, (zget period c) eqn:Q2, (zget delay c) eqn:Q3;
        try (exfalso; repeat match goal with Q : zget _ _ = Some _ |- _ => apply zget_some_range in Q | Q : zget _ _ = None |- _ => apply zget_none_range in Q end; lia).
      * pose proof (zget_some_range _ _ Q1). replace (_ && _)%bool with true by lia. cbn [option_map fst snd]. rewrite !Z.add_0_l, Q1, Q2, Q3. auto.
      * apply zget_none_range in Q1. replace (_ && _)%bool with false by lia. auto.
  - intros c n a p d A P Dd. unfold am, pe, de. rewrite A, P, Dd. specialize (Hp c p P). destruct (Z.eqb_spec p 0); [contradiction|]. cbn [negb andb]. split; intros K.
    + apply Z.mod_divide in K; auto. rewrite K. auto.
    + destruct (Z.eqb_spec ((n - d) mod p) 0) as [Q|]; auto. exfalso. apply K. apply Z.mod_divide; auto.
Qed.
End Pulses.
Theorem C26_counter channels start s : counter_init channels start = Ok s -> plays counter_get 1 (fun _ n => start + n) s.
Proof.
  unfold counter_init. destruct (1 <? channels); intros H0; [discriminate|]. injection H0 as <-.
  apply plays_inv with (I := fun s t => s = start + t); [|lia]. intros s t n -> Hn. unfold counter_get. eexists. split; [|reflexivity]. do 2 f_equal; [|lia]. 
  unfold piece. change (zrange 0 1) with [0]. cbn [map]. f_equal. apply zget_ext. intros k. rewrite zget_map, !zget_zrange. replace (start + t + n - (start + t)) with (n - 0) by lia. destruct (_ && _)%bool; auto. cbn [option_map]. f_equal. lia.
Qed.
Example C26_example : exists s, pulse_init 2 [7; 8] [3; 2] [1; 0] = Ok s /\ (exists s', request_all (pulse_get 0) s [2; 5] = Ok ([[[0; 7]; [8; 0]]; [[0; 0; 7; 0; 0]; [8; 0; 8; 0; 8]]], s')) /\
  exists s', request_all counter_get 5 [2; 3] = Ok ([[[5; 6]]; [[7; 8; 9]]], s').
Proof. eexists. split; [reflexivity|]. split; eexists; vm_compute; reflexivity. Qed.
Print Assumptions C26_pulses.
Print Assumptions C26_counter.
Theorem C26_counter_channels channels start : 1 < channels -> counter_init channels start = Err NotImplementedError.
Proof. intros H. unfold counter_init. destruct (Z.ltb_spec 1 channels); [auto|lia]. Qed.
Print Assumptions C26_counter_channels.
(** C24 for a one-dimensional array *)
Theorem C24_one_channel {V} (v0 : V) vmul audio amp : 1 <= zlen audio ->
  plays (sequence_get v0 vmul) 1 (fun _ n => vmul (match zget audio (n mod zlen audio) with Some x => x | None => v0 end) amp) (sequence_init_1d audio amp "repeat").
Proof.
  intros H ns Hns. destruct (C24_loop v0 vmul amp H (audio := [audio])) with (ns := ns) as (s & E); [intros row [<-|[]]; auto|auto|]. exists s. unfold sequence_init_1d. rewrite E. f_equal. f_equal.
  assert (X : forall ns t, cut (zlen [audio]) (fun c n => vmul (sample v0 [audio] c (n mod zlen audio)) amp) t ns = cut 1 (fun _ n => vmul (match zget audio (n mod zlen audio) with Some x => x | None => v0 end) amp) t ns) by (clear; induction ns as [|n ns IH]; intros t; cbn [cut]; [auto|rewrite IH; f_equal; reflexivity]). apply X.
Qed.
Print Assumptions C24_one_channel.

(* ------------------------------------------------------------------ C60 *)
(** the channel of a stack of signals, where the signal of source i has [counts] i channels *)
Fixpoint stacked {V} (parts : list (Z * (Z -> Z -> V))) (d : V) (c n : Z) : V :=
  match parts with [] => d | (k, f) :: r => if c <? k then f c n else stacked r d (c - k) n end.
Lemma piece_app {V} a b (f g : Z -> Z -> V) t n : 0 <= a -> 0 <= b -> piece a f t n ++ piece b g t n = piece (a + b) (fun c n => if c <? a then f c n else g (c - a) n) t n.
Proof.
  intros Ha Hb. unfold piece. rewrite (@zrange_app 0 a (a + b)) by lia. rewrite map_app. f_equal.
  - apply map_ext_in. intros c Hc. apply In_zrange in Hc. apply map_ext. intros k. destruct (Z.ltb_spec c a); [auto|lia].
  - apply zget_ext. intros i. rewrite !zget_map, !zget_zrange. replace (a + b - a) with (b - 0) by lia. destruct ((0 <=? i) && (i <? b - 0))%bool eqn:Q; auto. cbn [option_map]. f_equal. apply map_ext. intros k. destruct (Z.ltb_spec (a + i) a); [lia|]. f_equal. lia.
Qed.
(** C60: a source array plays the channels of all its sources, one source after the other *)
Theorem C60_stack {V S} (get : S -> Z -> res (list (list V) * S)) d sources parts : sources <> [] ->
  Forall2 (fun s p => 0 <= fst p /\ plays get (fst p) (snd p) s) sources parts ->
  plays (source_array_get get) (total (map fst parts)) (stacked parts d) sources.
Proof.
  intros Hne HF.
  set (I := fun (ss : list S) (t : Z) => length ss = length sources /\ 0 <= t /\ Forall2 (fun s p => 0 <= fst p /\ plays get (fst p) (fun c n => snd p c (t + n)) s) ss parts).
  apply plays_inv with (I := I).
  - intros ss t n (E1 & Ht & E2) Hn.
    assert (K : forall ss parts, Forall2 (fun s p => 0 <= fst p /\ plays get (fst p) (fun c n => snd p c (t + n)) s) ss parts -> exists ss', get_each get ss n = Ok (piece (total (map fst parts)) (stacked parts d) t n, ss') /\ length ss' = length ss /\ 0 <= total (map fst parts) /\
        Forall2 (fun s p => 0 <= fst p /\ plays get (fst p) (fun c k => snd p c (t + n + k)) s) ss' parts).
    { clear - Hn. induction 1 as [|s [k f] ss parts [Hk P] _ (ss' & E & L & Hp & F)]; [exists []; repeat split; auto; simpl; lia|]. cbn [fst snd map] in *. destruct (P [n]) as (s' & Q); [repeat constructor; auto|]. cbn [request_all cut] in Q. apply bind_ok in Q as ([o s1] & Q1 & Q2). cbn [bind fst snd] in Q2. inversion Q2; subst. clear Q2.
      exists (s' :: ss'). cbn [get_each]. rewrite Q1, E. cbn [bind fst snd]. split; [|split; [simpl; congruence|split; [change (0 <= k + total (map fst parts)); lia|]]].
      - f_equal. f_equal. change (total (k :: map fst parts)) with (k + total (map fst parts)). transitivity (piece k f t n ++ piece (total (map fst parts)) (stacked parts d) t n); [f_equal|].
        rewrite piece_app by auto. reflexivity.
      - constructor; auto. split; auto. intros ns Hns. destruct (P (n :: ns)) as (s2 & Q); [constructor; auto|]. cbn [request_all cut] in Q. rewrite Q1 in Q. cbn [bind fst snd] in Q. apply bind_ok in Q as ([o2 s3] & Q3 & Q4). cbn [fst snd] in Q4. inversion Q4; subst. exists s2. cbn [fst snd]. rewrite Q3. f_equal. f_equal.
        rewrite Z.add_0_l. assert (X : forall ns a, cut k (fun c m => f c (t + m)) (n + a) ns = cut k (fun c m => f c (t + n + m)) a ns). { clear. induction ns as [|m ns IH]; intros a; cbn [cut]; [auto|]. rewrite <- IH. rewrite Z.add_assoc. f_equal. unfold piece. apply map_ext. intros c. apply map_ext. intros i. f_equal. lia. }
        rewrite <- X. rewrite Z.add_0_r. auto. }
    destruct (K ss parts E2) as (ss' & E & L & _ & F). exists ss'. split; [|split; [congruence|split; [lia|auto]]]. unfold source_array_get. destruct ss; [destruct sources; [contradiction|discriminate]|]. exact E.
  - split; auto. split; [lia|]. exact HF.
Qed.
(** C60: an array without sources plays nothing *)
Theorem C60_none {V S} (get : S -> Z -> res (list (list V) * S)) n : source_array_get get [] n = Err ValueError.
Proof. reflexivity. Qed.
(** C60: source i of the array is what the constructor makes of amplitude i *)
Theorem C60_made {A S} (make : A -> res S) n amplitudes sources : 0 <= n -> source_array_init make n amplitudes = Ok sources ->
  zlen sources = n /\ forall i, 0 <= i < n -> exists a s, zget amplitudes i = Some a /\ zget sources i = Some s /\ make a = Ok s.
Proof.
  intros Hn H. unfold source_array_init in H.
  assert (K : forall l sources, mapM (fun i => match zget amplitudes i with Some a => make a | None => Err IndexError end) l = Ok sources ->
    zlen sources = zlen l /\ forall i x, zget l i = Some x -> exists a s, zget amplitudes x = Some a /\ zget sources i = Some s /\ make a = Ok s).
  { clear. induction l as [|x l IH]; intros sources H; cbn [mapM] in H.
    - inversion H; subst. split; [reflexivity|]. intros i x Hx. rewrite zget_nil in Hx. discriminate Hx.
    - apply bind_ok in H as (s & H1 & H). apply bind_ok in H as (r & H2 & H). inversion H; subst. destruct (IH _ H2) as [L G]. split; [rewrite !zlen_cons; lia|].
      intros i y Hy. rewrite zget_cons in Hy. rewrite zget_cons. destruct (i =? 0).
      + inversion Hy; subst. destruct (zget amplitudes y) as [a|]; [|discriminate H1]. exists a, s. auto.
      + exact (G _ _ Hy). }
  destruct (K _ _ H) as [L G]. split; [rewrite L, zlen_zrange; lia|]. intros i Hi. apply G. rewrite zget_zrange. replace ((0 <=? i) && (i <? n - 0))%bool with true by lia. f_equal; lia.
Qed.
Example C60_made_meets : source_array_init (fun a => counter_init a 5) 2 [1; 1] = Ok [5; 5].
Proof. reflexivity. Qed.
(** C60: with fewer amplitudes than sources an array cannot be made *)
Theorem C60_too_few {A S} (make : A -> res S) n amplitudes : zlen amplitudes < n -> (forall a, In a amplitudes -> exists s, make a = Ok s) ->
  source_array_init make n amplitudes = Err IndexError.
Proof.
  intros Hn Hm. unfold source_array_init.
  assert (K : forall l, (exists x, In x l /\ zlen amplitudes <= x) -> mapM (fun i => match zget amplitudes i with Some a => make a | None => Err IndexError end) l = Err IndexError).
  { induction l as [|x l IH]; intros (y & Hy & Ly); [destruct Hy|]. cbn [mapM]. destruct (zget amplitudes x) as [a|] eqn:Q; [|reflexivity].
    destruct (Hm a) as (s & ->); [eapply zget_In; exact Q|]. cbn [bind]. destruct Hy as [->|Hy]; [apply zget_some_range in Q; lia|]. rewrite IH; [reflexivity|]. exists y. auto. }
  apply K. exists (zlen amplitudes). split; [|lia]. apply In_zrange. pose proof (zlen_nonneg amplitudes). lia.
Qed.
Example C60_too_few_meets : zlen [1; 1] < 3 /\ forall a, In a [1; 1] -> exists s, counter_init a 5 = Ok s.
Proof. split; [reflexivity|]. intros a [<-|[<-|[]]]; exists 5; reflexivity. Qed.
(** C60, false: the amplitudes are not the amplitudes (or powers) of the sources: they become the number of channels, here for counting sources *)
Theorem C60_amplitude_refuted : exists amplitudes, source_array_init (fun a => counter_init a 5) 2 amplitudes = Err NotImplementedError /\ zlen amplitudes = 2.
Proof. exists [2; 3]. split; reflexivity. Qed.
Example C60_example : exists parts, Forall2 (fun s p => 0 <= fst p /\ plays counter_get (fst p) (snd p) s) [5; 7] parts.
Proof.
  exists [(1, fun _ n => 5 + n); (1, fun _ n => 7 + n)]. constructor; [split; [cbn; lia|apply (@C26_counter 1 5); reflexivity]|]. constructor; [split; [cbn; lia|apply (@C26_counter 1 7); reflexivity]|]. constructor.
Qed.
Print Assumptions C60_stack.
Print Assumptions C60_none.
Print Assumptions C60_amplitude_refuted.
Print Assumptions C60_made.
Print Assumptions C60_too_few.
(** concrete cases of the theorems above: the source of [C24_example], divided in two ways *)
Example C24_loop_meets : exists f, plays (sequence_get 0 Z.mul) 2 f (sequence_init [[1; 2; 3]; [4; 5; 6]] 3 10 "repeat") /\ f 1 4 = 50.
Proof. eexists. split; [apply (@C24_loop Z 0 Z.mul [[1; 2; 3]; [4; 5; 6]] 3 10); [lia|intros row [<-|[<-|[]]]; reflexivity]|reflexivity]. Qed.
Example playing_division_meets outs s' : request_all (sequence_get 0 Z.mul) (sequence_init [[1; 2; 3]; [4; 5; 6]] 3 10 "repeat") [2; 0; 5] = Ok (outs, s') -> channel outs 1 = [40; 50; 60; 40; 50; 60; 40].
Proof.
  intros H. refine (eq_trans (@playing_division _ _ _ 2 _ _ _ _ _ 1 (@C24_loop Z 0 Z.mul [[1; 2; 3]; [4; 5; 6]] 3 10 _ _) _ H _) _); [lia|intros row [<-|[<-|[]]]; reflexivity|repeat constructor; lia|lia|reflexivity].
Qed.
Example C24_one_channel_meets : exists f, plays (sequence_get 0 Z.mul) 1 f (sequence_init_1d [1; 2; 3] 10 "repeat") /\ f 0 5 = 30.
Proof. eexists. split; [apply (@C24_one_channel Z 0 Z.mul [1; 2; 3] 10); unfold zlen; simpl; lia|reflexivity]. Qed.
Example C25_once_partial_meets : rectangular [[1; 2; 3]] 3 /\ Forall (fun n => 0 <= n) [1; 1] /\ total [1; 1] < 3 /\ exists outs s, request_all (sequence_get 0 Z.mul) (sequence_init [[1; 2; 3]] 3 1 "raise") [1; 1] = Ok (outs, s).
Proof. split; [intros row [<-|[]]; reflexivity|]. split; [repeat constructor; lia|]. split; [reflexivity|]. eexists _, _. vm_compute. reflexivity. Qed.
Example C26_pulses_meets : exists f s, pulse_init 2 [7; 8] [3; 2] [1; 0] = Ok s /\ plays (pulse_get 0) 2 f s /\ f 0 4 = 7 /\ f 0 5 = 0 /\ f 1 6 = 8.
Proof.
  edestruct (@C26_pulses Z 0 2 [7; 8] [3; 2] [1; 0]) as (f & P & F); [lia|reflexivity| |].
  { intros c p H. apply zget_In in H. destruct H as [<-|[<-|[]]]; lia. }
  exists f. eexists. split; [reflexivity|]. split; [exact P|].
  split; [|split]; [apply (F 0 4 7 3 1); try reflexivity; exists 1; reflexivity| |apply (F 1 6 8 2 0); try reflexivity; exists 3; reflexivity].
  apply (F 0 5 7 3 1); try reflexivity. intros (k & K). lia.
Qed.
Example C26_counter_meets : exists s, counter_init 1 5 = Ok s /\ counter_init 3 5 = Err NotImplementedError.
Proof. eexists. split; reflexivity. Qed.
Example C60_stack_meets : plays (source_array_get counter_get) 2 (stacked [(1, fun _ n => 5 + n); (1, fun _ n => 7 + n)] 0) [5; 7].
Proof.
  apply (@C60_stack Z Z counter_get 0 [5; 7] [(1, fun _ n => 5 + n); (1, fun _ n => 7 + n)]); [intros X; inversion X|].
  constructor; [split; [cbn; lia|apply (@C26_counter 1 5); reflexivity]|]. constructor; [split; [cbn; lia|apply (@C26_counter 1 7); reflexivity]|]. constructor.
Qed.
