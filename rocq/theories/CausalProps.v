(** C108: causality.  What happens up to a time does not depend on what the sources play afterwards. *)
Require Import Verif.PyBase Verif.PyLemmas Verif.ConfigModel Verif.ArrayModel Verif.ArraySpec Verif.ArrayProofs Verif.ArrayPaths Verif.LoggerModel Verif.LoggerSpec Verif.LoggerProofs
  Verif.SimModel Verif.SimSpec Verif.SimRefine Verif.SimRun Verif.SimDiag Verif.SimLoop Verif.SignalSpec Verif.SignalPass Verif.SignalRun Verif.SignalLaw Verif.SignalInv Verif.RunSpec Verif.RunLaw Verif.DiagRun
  Verif.DiagModel Verif.DiagSpec Verif.DiagProofs Verif.DiagCtorModel Verif.DiagCtorProofs Verif.SaveProps Verif.ProcModel Verif.Demo Verif.DemoRun Verif.DemoSpy Verif.SignalProps Verif.DemoFun.
Set Implicit Arguments.
Arguments Z.add : simpl never.
Arguments Z.sub : simpl never.
Arguments Z.mul : simpl never.
Ltac Zify.zify_post_hook ::= Z.div_mod_to_equations.

Section Causal.
Context {E : AEnv}.
Notation arr := (arr Pos Src).
(** the array a with the generator x *)
Definition give_source (a : arr) (x : option Src) : arr := mkArr (a_name a) (a_kind a) (a_num a) (a_pos a) (a_traj a) (a_dirs a) x (a_time_all a) (a_pos_all a).
(** the same collection with other generators: the array named k plays [f k] *)
Definition with_sources (f : string -> option Src) (c : coll E) : coll E := set_arrays c (map (fun kv => (fst kv, give_source (snd kv) (f (fst kv)))) (c_arrays c)).
(** the same impulse responses *)
Definition same_path (p q : path V) : Prop := p_ns p = p_ns q /\ p_nm p = p_nm q /\ p_len p = p_len q /\
  forall s m k, 0 <= s < p_ns p -> 0 <= m < p_nm p -> 0 <= k < p_len p -> p_at p s m k = p_at q s m k.
(** two arrays that differ in nothing a path is made from *)
Definition alike (a b : arr) : Prop := a_num a = a_num b /\ a_pos a = a_pos b /\ a_dirs a = a_dirs b.
(** paths of type ty come out the same whenever they are computed, that is, they do not depend on random numbers *)
Definition repeatable (i : info) (ty : string) : Prop := forall g g' a a' b b' h h' p p', alike a a' -> alike b b' ->
  made_path i g a b ty h p -> made_path i g' a' b' ty h' p' -> same_path p p'.

Lemma repeatable_types (i : info) ty : ty <> "random"%string -> rp_random (rir_params i) = false ->
  (forall par g g' x y h p h' p', rp_random par = false -> ism3d par g x y = Ok (h, p) -> ism3d par g' x y = Ok (h', p') -> p = p') ->
  (forall p q sr f, same_path p q -> same_path (filter_rirs p sr f) (filter_rirs q sr f)) -> repeatable i ty.
Proof.
  intros Hr HR HD HF g g' a a' b b' h h' p p' (A1 & A2 & A3) (B1 & B2 & B3) (q & R & ->) (q' & R' & ->).
  assert (K : same_path q q').
  { inversion R; subst; inversion R'; subst; try congruence; try (rewrite A2, B2 in *; assert (q = q') as -> by (eapply HD; eauto; congruence); repeat split; fail).
    all: split; [congruence|]; split; [congruence|]; split; [congruence|]; intros s m k Hs Hm Hk.
    - repeat match goal with H : forall s m k, p_at _ s m k = _ |- _ => rewrite H; clear H end. reflexivity.
    - assert (k = 0) as -> by lia. repeat match goal with H : forall s m, p_at _ s m 0 = _ |- _ => rewrite H; clear H end. reflexivity. }
  destruct (0 <? highpass_cutoff i); auto.
Qed.
Lemma response_same p q x y t : same_path p q -> (forall u, u <= t -> x u = y u) -> response p x t = response q y t.
Proof.
  intros (N1 & N2 & N3 & HP) H. rewrite (@response_ext _ p x y t H). unfold response. rewrite <- N2. apply map_ext_in. intros j Hj. apply In_zrange in Hj. unfold convolved. rewrite <- N1, <- N3. f_equal.
  apply map_ext_in. intros s Hs. apply In_zrange in Hs. f_equal. apply map_ext_in. intros k Hk. apply In_zrange in Hk. rewrite HP; auto.
Qed.

Section Lists.
Variables (f : string -> option Src) (c : coll E).
Notation c' := (with_sources f c).
Lemma dget_sources (d : dict arr) k : dget (map (fun kv => (fst kv, give_source (snd kv) (f (fst kv)))) d) k = option_map (fun a => give_source a (f k)) (dget d k).
Proof. induction d as [|[n a] d IH]; cbn [map dget fst snd]; auto. destruct (String.eqb_spec k n); subst; auto. Qed.
Lemma array_sources k a : the_array c k a -> the_array c' k (give_source a (f k)).
Proof. unfold the_array, with_sources, set_arrays. cbn [c_arrays]. intros H. rewrite dget_sources, H. reflexivity. Qed.
Lemma sources_array k a : the_array c' k a -> exists b, the_array c k b /\ a = give_source b (f k).
Proof. unfold the_array, with_sources, set_arrays. cbn [c_arrays]. rewrite dget_sources. destruct (dget (c_arrays c) k) as [b|]; [|discriminate]. intros H. injection H as <-. eauto. Qed.
Lemma keys_sources (g : arr -> bool) : (forall a x, g (give_source a x) = g a) -> map fst (filter (fun kv => g (snd kv)) (c_arrays c')) = map fst (filter (fun kv => g (snd kv)) (c_arrays c)).
Proof.
  intros Hg. unfold with_sources, set_arrays. cbn [c_arrays]. induction (c_arrays c) as [|[n a] d IH]; auto. cbn [map filter fst snd]. rewrite Hg. destruct (g a); cbn [map fst]; rewrite IH; auto.
Qed.
Lemma coll_sources : coll_ok c -> coll_ok c'.
Proof.
  intros O. constructor.
  - unfold with_sources, set_arrays. cbn [c_arrays]. unfold dkeys. rewrite map_map. exact (ok_names O).
  - intros k a H. destruct (sources_array H) as (b & Hb & ->). exact (ok_key O k Hb).
  - rewrite keys_sources by reflexivity. exact (ok_mic O).
  - rewrite keys_sources by reflexivity. exact (ok_src O).
  - rewrite keys_sources by reflexivity. exact (ok_free O).
  - exact (ok_paths O).
  - exact (ok_types O).
Qed.
Lemma kept_sources {B} (g : arr -> bool) (h : arr -> B) : (forall a x, g (give_source a x) = g a) -> (forall a x, h (give_source a x) = h a) ->
  map h (filter g (map snd (c_arrays c'))) = map h (filter g (map snd (c_arrays c))).
Proof.
  intros Hg Hh. unfold with_sources, set_arrays. cbn [c_arrays]. induction (c_arrays c) as [|[n a] d IH]; auto. cbn [map filter fst snd]. rewrite Hg. destruct (g a); cbn [map]; rewrite IH, ?Hh; auto.
Qed.
Lemma prod_map {A A' B B'} (g : A -> A') (h : B -> B') l l2 : list_prod (map g l) (map h l2) = map (fun ab => (g (fst ab), h (snd ab))) (list_prod l l2).
Proof. induction l as [|a l IH]; cbn [map list_prod]; auto. rewrite map_app, IH, !map_map. reflexivity. Qed.
Lemma dims_sources {S : SEnv} ct (procs : list (@proc E S)) : coll_ok c -> ref_dims ct c' procs = ref_dims ct c procs.
Proof.
  intros O. unfold ref_dims.
  replace (map (fun kv => (a_name (snd kv), a_num (snd kv))) (c_arrays c')) with (map (fun kv => (a_name (snd kv), a_num (snd kv))) (c_arrays c)).
  2: { unfold with_sources, set_arrays. cbn [c_arrays]. rewrite map_map. reflexivity. }
  destruct (foldM declare [] _) as [ds|]; cbn [bind]; auto. destruct ct; auto. rewrite (combos_eq O), (combos_eq (coll_sources O)). cbn [bind].
  assert (K : forall l1 l2 : list arr, map (fun sm => (contrib (a_name (fst sm)) (a_name (snd sm)), a_num (snd sm))) (list_prod l1 l2) =
    map (fun x => (contrib (fst x) (fst (snd x)), snd (snd x))) (list_prod (map (fun m => a_name m) l1) (map (fun m => (a_name m, a_num m)) l2))).
  { intros l1 l2. rewrite prod_map, map_map. reflexivity. }
  rewrite !K. rewrite (kept_sources is_source (fun m => a_name m)), (kept_sources is_mic (fun m => (a_name m, a_num m))) by reflexivity. reflexivity.
Qed.
End Lists.
End Causal.

Section Law.
Context {E : AEnv} {DE : DEnv}.
Notation arr := (arr Pos Src).
Variables PS0 D0 Out0 : Type.
Variable dsave0 : D0 -> option PS0 -> dict (list frame) -> Z * Z -> res D0.
Variable dout0 : D0 -> Z -> res Out0.
Local Instance CaS : SEnv := full dsave0 dout0.

Lemma written_local ds (tl tl' : timeline) (procs : list (@proc E CaS)) N nm u : blocks_ok procs -> (forall nm v, v < u -> tl nm v = tl' nm v) ->
  written ds tl procs N nm u = written ds tl' procs N nm u.
Proof.
  intros Hb H. destruct procs as [|p [|q procs]]; cbn [written]; auto. inversion Hb; subst.
  destruct (Z.leb_spec 1 (u / pr_bs p)); simpl; auto. destruct (Z.leb_spec (u / pr_bs p * pr_bs p) N); auto.
  rewrite (@output_of_ext _ _ ds tl tl'); auto. intros nm' v Hv. apply H. rewrite Z2Nat.id in Hv by lia. nia.
Qed.

Lemma experiment_sources f i c (procs : list (@proc E CaS)) : experiment i c procs -> experiment i (with_sources f c) procs.
Proof.
  intros X. constructor.
  - exact (ex_sizes X).
  - apply coll_sources. exact (ex_coll X).
  - intros s m p a b L Hs Hm Ha Hb. destruct (sources_array Ha) as (a0 & Ha0 & ->). destruct (sources_array Hb) as (b0 & Hb0 & ->). exact (@ex_paths _ _ _ _ _ X s m p a0 b0 L Hs Hm Ha0 Hb0).
  - intros k a Ha. destruct (sources_array Ha) as (a0 & Ha0 & ->). exact (ex_counts X Ha0).
  - exact (ex_dict X).
Qed.

(** an experiment, and the same with other generators in its free sources *)
Variables (i : info) (f : string -> option Src) (c : coll E) (procs : list (@proc E CaS)) (diags diags' : dict (diag D)) (st st' : sim).
Hypothesis HX : experiment i c procs.
Hypothesis HD : good_diags i diags.
Hypothesis HR : run_simulation i c procs diags = Ok st.
Hypothesis HD' : good_diags i diags'.
Hypothesis HR' : run_simulation i (with_sources f c) procs diags' = Ok st'.
(** up to time T the generators of the array k produce the same samples *)
Definition plays_alike (T : Z) (k : string) : Prop := exists a x y, the_array c k a /\ a_source a = Some x /\ f k = Some y /\
  forall t, t <= T -> free_signal (a_num a) x (first_request (early_start i)) t = free_signal (a_num a) y (first_request (early_start i)) t.
(** C108.  Arrays that move have paths without random numbers, the processor is arbitrary.  If the sources play the same up to time T, all signals agree up to then. *)
Theorem C108_causal T : 0 <= T <= Z.of_nat (run_length i procs) -> (forall k, In k (c_free c) -> plays_alike T k) ->
  (stationary c \/ exists inf, c_info c = Some inf /\ forall s m ty, In s (c_src c) -> In m (c_mic c) -> lookup2 (c_ptypes c) s m = Some ty -> repeatable inf ty) ->
  forall nm t, t <= T -> signals_of i (with_sources f c) procs nm t = signals_of i c procs nm t.
Proof.
  intros HT HF HP. pose proof (@experiment_sources f _ _ _ HX) as HX'.
  destruct (run_facts HX HD HR) as (r & P & H1 & Hb & Hds & Hr & Es & C1 & C2 & C3 & HN & P0 & Pm & Ps & L & St & _).
  destruct (run_facts HX' HD' HR') as (r' & P' & H1' & Hb' & Hds' & Hr' & Es' & C1' & C2' & C3' & HN' & P0' & Pm' & Ps' & L' & St' & _).
  assert (ED : dims_of i (with_sources f c) procs = dims_of i c procs) by (unfold dims_of; rewrite (dims_sources f _ _ (ex_coll HX)); reflexivity). rewrite ED in *. rewrite Es, Es'. clear Es Es'.
  set (ct := save_source_contributions i) in *. set (n0 := first_request (early_start i)) in *. set (ds := dims_of i c procs) in *.
  assert (Free : forall k t, In k (c_free c) -> t <= T -> r_tl r' k t = r_tl r k t).
  { intros k t Hk Ht. destruct (HF k Hk) as (a & x & y & Ha & Hx & Hy & Q). destruct (l_draw L Hk Ha) as (x1 & _ & X1 & _ & _ & X2). destruct (l_draw L' Hk (array_sources f Ha)) as (y1 & _ & Y1 & _ & _ & Y2).
    rewrite X2, Y2 by lia. cbn [give_source a_source a_num] in *. replace x1 with x by congruence. replace y1 with y by congruence. symmetry. apply Q; auto. }
  assert (Paths : forall t s m, t <= Z.of_nat (run_length i procs) -> In s (c_src c) -> In m (c_mic c) -> same_path (P' t s m) (P t s m)).
  { intros t s m Ht Hs Hm. assert (Refl : forall p, same_path p p) by (intros p; repeat split; auto).
    destruct (Z_le_gt_dec t 0); [rewrite P0, P0' by lia; apply Refl|].
    destruct (src_array (ex_coll HX) s Hs) as (a & Ha & _). destruct (mic_array (ex_coll HX) m Hm) as (b & Hmb & _).
    destruct (dynamic a || dynamic b) eqn:Q.
    - destruct HP as [HSt|(inf & Hi & HP)]. { unfold dynamic in Q. rewrite (HSt _ _ Ha), (HSt _ _ Hmb) in Q. discriminate. }
      destruct (Pm inf t s m a b Hi (ltac:(lia)) Hs Hm Ha Hmb Q) as (ty & g1 & g2 & T1 & M1).
      destruct (Pm' inf t s m _ _ Hi (ltac:(lia)) Hs Hm (array_sources f Ha) (array_sources f Hmb) Q) as (ty' & g1' & g2' & T1' & M1').
      assert (ty' = ty) by (unfold with_sources, set_arrays in T1'; cbn [c_ptypes] in T1'; congruence). subst ty'.
      assert (Al : forall (a : arr) x u, alike (placed_at (give_source a x) u) (placed_at a u)) by (intros a0 x u; unfold placed_at; cbn [give_source a_traj]; destruct (a_traj a0); repeat split).
      exact (HP s m ty Hs Hm T1 _ _ _ _ _ _ _ _ _ _ (Al _ _ _) (Al _ _ _) M1' M1).
    - assert (D1 : a_traj a = None) by (unfold dynamic in Q; destruct (a_traj a); [discriminate|reflexivity]). assert (D2 : a_traj b = None) by (unfold dynamic in Q; destruct (a_traj a), (a_traj b); try discriminate; reflexivity).
      rewrite Ps, Ps'; [apply Refl|lia|exact Hs|exact Hm| |lia|exact Hs|exact Hm|].
      + intros a1 b1 A1 B1. destruct (sources_array A1) as (a2 & A2 & ->). destruct (sources_array B1) as (b2 & B2 & ->). unfold the_array in *. cbn [give_source a_traj]. split; congruence.
      + intros a1 b1 A1 B1. unfold the_array in *. split; congruence. }
  set (N := Z.of_nat (run_length i procs)) in *.
  (* a source at a time before which everything agrees *)
  assert (Source : forall s u, In s (c_src c) -> u <= T -> (forall nm v, v < u -> r_tl r' nm v = r_tl r nm v) -> r_tl r' s u = r_tl r s u).
  { intros s u Hs Hu IH. destruct (in_dec string_dec s (c_free c)) as [Hf|Hf]; [apply Free; auto|].
    assert (Hnm : ~ In s (c_mic c)) by (intros Hm; eapply mic_not_src; eauto; apply HX). destruct (src_array (ex_coll HX) s Hs) as (a & Ha & _).
    assert (W : ct = false \/ forall s0 m, In s0 (c_src c) -> In m (c_mic c) -> s <> contrib s0 m). { destruct (bool_dec ct true) as [Qc|Qc]; [right|left; destruct ct; congruence]. intros s0 m Hs0 Hm. apply (no_arr HN Qc) with (a := a); auto. }
    rewrite (l_rest L Hf W (or_introl Hnm)), (l_rest L' (nm := s) Hf W (or_introl Hnm)). apply written_local; auto. }
  assert (Kinds : forall nm, In nm (c_free c) \/ In nm (c_mic c) \/ (ct = true /\ exists s m, In s (c_src c) /\ In m (c_mic c) /\ nm = contrib s m) \/
    (~ In nm (c_free c) /\ ~ In nm (c_mic c) /\ (ct = false \/ forall s m, In s (c_src c) -> In m (c_mic c) -> nm <> contrib s m))).
  { intros nm. destruct (in_dec string_dec nm (c_free c)); auto. destruct (in_dec string_dec nm (c_mic c)); auto. right; right. destruct (bool_dec ct true) as [Qc|Qc].
    2: { right. split; auto. split; auto. left. destruct ct; congruence. }
    destruct (in_dec string_dec nm (map (fun sm => contrib (fst sm) (snd sm)) (list_prod (c_src c) (c_mic c)))) as [Hin|Hin].
    - left. split; auto. apply in_map_iff in Hin as ([s m] & <- & Hin). apply in_prod_iff in Hin as [A B]. eauto.
    - right. split; auto. split; auto. right. intros s m Hs Hm ->. apply Hin. apply in_map_iff. exists (s, m). split; auto. apply in_prod; auto. }
  (* before the first step *)
  assert (Start : forall tl nm u, u <= 0 -> written ds tl procs N nm u = silent ds nm).
  { intros tl nm u Hu. unfold written. destruct procs as [|p [|]]; auto. inversion Hb; subst. destruct (Z.leb_spec 1 (u / pr_bs p)); auto. nia. }
  assert (Source0 : forall s u, In s (c_src c) -> u <= 0 -> r_tl r' s u = r_tl r s u).
  { intros s u Hs Hu. destruct (in_dec string_dec s (c_free c)) as [Hf|Hf]; [apply Free; auto; lia|].
    assert (Hnm : ~ In s (c_mic c)) by (intros Hm; eapply mic_not_src; eauto; apply HX). destruct (src_array (ex_coll HX) s Hs) as (a & Ha & _).
    assert (W : ct = false \/ forall s0 m, In s0 (c_src c) -> In m (c_mic c) -> s <> contrib s0 m). { destruct (bool_dec ct true) as [Qc|Qc]; [right|left; destruct ct; congruence]. intros s0 m Hs0 Hm. apply (no_arr HN Qc) with (a := a); auto. }
    rewrite (l_rest L Hf W (or_introl Hnm)), (l_rest L' (nm := s) Hf W (or_introl Hnm)). rewrite !Start; auto. }
  assert (Base : forall nm u, u <= 0 -> r_tl r' nm u = r_tl r nm u).
  { intros nm u Hu. destruct (Kinds nm) as [K|[K|[(Qc & s & m & Hs & Hm & ->)|(K1 & K2 & K3)]]].
    - apply Free; auto; lia.
    - destruct (mic_array (ex_coll HX) nm K) as (b & Hmb & _). rewrite (st_mic St K Hmb Hu), (st_mic St' (m := nm) K (array_sources f Hmb) Hu). cbn [give_source a_num].
      destruct (start_mic (early_start i) u) as [v|] eqn:Qv; auto. f_equal. apply map_ext_in. intros s Hs. apply response_same; [repeat split; auto|]. intros w Hw. apply Source0; auto.
      unfold start_mic in Qv. destruct (early_start i) as [n|]; [destruct ((1 - n <=? u) && (u <=? 0)); [|discriminate]; injection Qv as <-; lia|]. destruct (u <=? 0); [|discriminate]. injection Qv as <-. lia.
    - destruct (mic_array (ex_coll HX) m Hm) as (b & Hmb & _). rewrite (st_con St Qc s Hs Hm Hmb Hu), (st_con St' Qc s Hs Hm (array_sources f Hmb) Hu). cbn [give_source a_num].
      destruct (1 - _ <=? u); auto. apply response_same; [repeat split; auto|]. intros w Hw. apply Source0; auto; lia.
    - rewrite (l_rest L K1 K3 (or_introl K2)), (l_rest L' (nm := nm) K1 K3 (or_introl K2)). rewrite !Start; auto. }
  (* the steps *)
  assert (Step : forall n nm u, u <= Z.of_nat n -> u <= T -> r_tl r' nm u = r_tl r nm u).
  { induction n as [|n IH]; intros nm u Hu HuT; [apply Base; lia|]. destruct (Z_le_gt_dec u (Z.of_nat n)); [apply IH; lia|]. destruct (Z_le_gt_dec u 0); [apply Base; lia|].
    assert (Past : forall nm v, v < u -> r_tl r' nm v = r_tl r nm v) by (intros nm' v Hv; apply IH; lia).
    assert (Now : forall s v, In s (c_src c) -> v <= u -> r_tl r' s v = r_tl r s v). { intros s v Hs Hv. destruct (Z.eq_dec v u) as [->|]; [|apply Past; lia]. apply Source; auto. }
    destruct (Kinds nm) as [K|[K|[(Qc & s & m & Hs & Hm & ->)|(K1 & K2 & K3)]]].
    - apply Free; auto.
    - destruct (mic_array (ex_coll HX) nm K) as (b & Hmb & _). rewrite (l_out L K Hmb), (l_out L' (m := nm) K (array_sources f Hmb)) by lia. cbn [give_source a_num].
      rewrite (@written_local ds (r_tl r') (r_tl r)) by auto. f_equal. apply map_ext_in. intros s Hs. apply response_same; [apply Paths; auto; lia|]. intros v Hv. apply Now; auto.
    - rewrite (l_con L Qc s m Hs Hm), (l_con L' Qc s m Hs Hm) by lia. apply response_same; [apply Paths; auto; lia|]. intros v Hv. apply Now; auto.
    - rewrite (l_rest L K1 K3 (or_introl K2)), (l_rest L' (nm := nm) K1 K3 (or_introl K2)). apply written_local; auto. }
  intros nm t Ht. apply (Step (Z.to_nat t)); lia.
Qed.
(** C108.  So the recordings agree up to then, and the processor is in the same state. *)
Theorem C108_recorded T : 0 <= T <= Z.of_nat (run_length i procs) -> (forall k, In k (c_free c) -> plays_alike T k) ->
  (stationary c \/ exists inf, c_info c = Some inf /\ forall s m ty, In s (c_src c) -> In m (c_mic c) -> lookup2 (c_ptypes c) s m = Some ty -> repeatable inf ty) ->
  forall dn dn' nm num, 0 <= num -> dget (dims_of i c procs) nm = Some num -> records i diags dn nm num -> records i diags' dn' nm num ->
  exists x x', recording i st dn x /\ recording i st' dn' x' /\ forall t, 0 <= t < tot_samples i -> t <= T -> x' t = x t.
Proof.
  intros HT HF HP dn dn' nm num H0 Hn R R'. exists (signals_of i c procs nm), (signals_of i (with_sources f c) procs nm). split; [|split].
  - eapply (recorded_signal HX HD HR); eauto.
  - eapply (recorded_signal (@experiment_sources f _ _ _ HX) HD' HR'); eauto. unfold dims_of. rewrite (dims_sources f _ _ (ex_coll HX)). exact Hn.
  - intros t _ Ht. apply (C108_causal HT HF HP nm Ht).
Qed.
Theorem C108_processor T : 0 <= T <= Z.of_nat (run_length i procs) -> (forall k, In k (c_free c) -> plays_alike T k) ->
  (stationary c \/ exists inf, c_info c = Some inf /\ forall s m ty, In s (c_src c) -> In m (c_mic c) -> lookup2 (c_ptypes c) s m = Some ty -> repeatable inf ty) ->
  forall b, 0 <= b <= T -> proc_state i (with_sources f c) procs b = proc_state i c procs b.
Proof.
  intros HT HF HP b Hbt. unfold proc_state. pose proof (C108_causal HT HF HP) as K. destruct (run_facts HX HD HR) as (r & P & H1 & Hb & _). clear -K HX Hb Hbt. destruct procs as [|p [|q l]]; auto. inversion Hb; subst.
  assert (ED : dims_of i (with_sources f c) [p] = dims_of i c [p]) by (unfold dims_of; rewrite (dims_sources f _ _ (ex_coll HX)); reflexivity). rewrite ED. f_equal. apply state_after_ext; auto.
  intros nm u Hu. apply K. rewrite Z2Nat.id in Hu by nia. nia.
Qed.
End Law.

(* ------------------------------------------------------------------ Examples *)
Section Examples.
Local Open Scope string_scope.
Local Existing Instances fdemo fdemo_d fdemo_s.
Let i1 := run_info 10 5 false true.
Let up (t : Z) : Z := (t + 5)%Z.
Let stops (t : Z) : Z := (if t <=? 6 then t + 5 else 0)%Z.
(** a moving microphone, a source that plays 5, 6, 7, ... for ever or until time 6 only, and a loudspeaker that plays what the microphone has picked up *)
Example C108_example : exists c d st d' st', let f := fun k : string => if String.eqb k "src" then Some (0, stops) else None in
  experiment i1 c [fecho 3 5] /\ good_diags i1 d /\ run_simulation i1 c [fecho 3 5] d = Ok st /\
  good_diags i1 d' /\ run_simulation i1 (with_sources f c) [fecho 3 5] d' = Ok st' /\ 0 <= 6 <= Z.of_nat (run_length i1 [fecho 3 5]) /\
  (forall k, In k (c_free c) -> plays_alike i1 f c 6 k) /\
  (exists inf, c_info c = Some inf /\ forall s m ty, In s (c_src c) -> In m (c_mic c) -> lookup2 (c_ptypes c) s m = Some ty -> repeatable inf ty) /\
  forall nm, In nm ["mic"; "src"; "spk"] -> dget (dims_of i1 c [fecho 3 5]) nm = Some 1 /\ records i1 d nm nm 1 /\ records i1 d' nm nm 1.
Proof.
  assert (N : NoDup ["mic"; "src"; "spk"]) by (repeat constructor; simpl; intuition discriminate).
  destruct (frun_meets i1 (froom (Some (fun t => t)) up) [(3, 5)] ["mic"; "src"; "spk"]) as (c & d & st & Hc & Hd & A & B & C); [vm_compute; reflexivity|apply froom_sized|cbn; lia|exact N|vm_compute; reflexivity|].
  destruct (frun_meets i1 (froom (Some (fun t => t)) stops) [(3, 5)] ["mic"; "src"; "spk"]) as (c' & d' & st' & Hc' & Hd' & A' & B' & C'); [vm_compute; reflexivity|apply froom_sized|cbn; lia|exact N|vm_compute; reflexivity|].
  set (f := fun k : string => if String.eqb k "src" then Some (0, stops) else None).
  assert (Ec : c' = with_sources f c).
  { assert (K : get (fcoll i1 (froom (Some (fun t => t)) up)) (with_sources f) = get (fcoll i1 (froom (Some (fun t => t)) stops)) (fun c => c)) by (vm_compute; reflexivity).
    rewrite Hc, Hc' in K. cbn [get] in K. exact (f_equal (fun o => match o with Some x => x | None => c' end) (eq_sym K)). }
  subst c'.
  pose proof (fcoll_is _ _ _ _ (fun c => (c_arrays c, c_free c)) _ Hc (ltac:(vm_compute; reflexivity))) as Q. cbv beta in Q. injection Q as Q1 Q2.
  pose proof (fcoll_is _ _ _ _ (fun c => c_info c) _ Hc (ltac:(vm_compute; reflexivity))) as Q3. cbv beta in Q3.
  pose proof (fcoll_is _ _ _ _ (fun c => c_ptypes c) _ Hc (ltac:(vm_compute; reflexivity))) as Q4. cbv beta in Q4.
  pose proof (fcoll_is _ _ _ _ (fun c => dims_of i1 c [fecho 3 5]) _ Hc (ltac:(vm_compute; reflexivity))) as Q5. cbv beta in Q5.
  destruct (frecorders_get _ _ _ Hd) as [_ K]. destruct (frecorders_get _ _ _ Hd') as [_ K'].
  exists c, d, st, d', st'. cbv zeta. fold f. split; [exact A|]. split; [exact B|]. split; [exact C|]. split; [exact B'|]. split; [exact C'|]. split; [vm_compute; split; discriminate|].
  split; [|split].
  - intros k Hk. rewrite Q2 in Hk. destruct Hk as [<-|[]]. eexists _, (0, up), (0, stops). split; [unfold the_array; rewrite Q1; reflexivity|]. split; [reflexivity|]. split; [reflexivity|].
    intros t Ht. change (first_request (early_start i1)) with 1%Z. cbn [a_num]. rewrite !fplays. destruct (t <? 0)%Z; auto. unfold up, stops. destruct (Z.leb_spec t 6); [reflexivity|lia].
  - eexists. split; [exact Q3|]. intros s m ty _ _ Hl. rewrite Q4 in Hl. apply repeatable_types.
    + intros ->. unfold lookup2 in Hl. cbn [dget] in Hl. repeat (destruct (String.eqb _ _); cbn [dget] in Hl); try discriminate Hl.
    + reflexivity.
    + intros par g g' x y h p h' p' _ X1 X2. cbn in X1, X2. injection X1 as _ <-. injection X2 as _ <-. reflexivity.
    + intros p q sr fr HS. exact HS.
  - intros nm Hn. split; [rewrite Q5; repeat (destruct Hn as [<-|Hn]; [reflexivity|]); destruct Hn|]. split; [apply K; exact Hn|apply K'; exact Hn].
Qed.
(** the recordings part after time 6 (the microphone hears it later) *)
Example C108_values : frecs (frun i1 (froom None up) [(3, 5)] ["mic"; "src"; "spk"]) ["mic"; "src"] = map (fun l => Some (map (fun x => Some [x]) l))
    [[0; 0; 5; 6; 7; 8; 14; 16; 18; 20; 27; 30]; [5; 6; 7; 8; 9; 10; 11; 12; 13; 14; 15; 16]] /\
  frecs (frun i1 (froom None stops) [(3, 5)] ["mic"; "src"; "spk"]) ["mic"; "src"] = map (fun l => Some (map (fun x => Some [x]) l))
    [[0; 0; 5; 6; 7; 8; 14; 16; 18; 8; 14; 16]; [5; 6; 7; 8; 9; 10; 11; 0; 0; 0; 0; 0]].
Proof. vm_compute. split; reflexivity. Qed.
End Examples.
Print Assumptions C108_causal.
Print Assumptions C108_recorded.
Print Assumptions C108_processor.
