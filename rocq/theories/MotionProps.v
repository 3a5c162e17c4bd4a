(** C111: only the positions at the times of an update matter. *)
Require Import Verif.PyBase Verif.PyLemmas Verif.ConfigModel Verif.ArrayModel Verif.ArraySpec Verif.ArrayProofs Verif.ArrayPaths Verif.LoggerModel Verif.LoggerSpec Verif.LoggerProofs
  Verif.SimModel Verif.SimSpec Verif.SimRefine Verif.SimRun Verif.SimDiag Verif.SimLoop Verif.SignalSpec Verif.SignalPass Verif.SignalRun Verif.SignalLaw Verif.SignalInv Verif.RunSpec Verif.RunLaw Verif.DiagRun
  Verif.DiagModel Verif.DiagSpec Verif.DiagProofs Verif.DiagCtorModel Verif.DiagCtorProofs Verif.SaveProps Verif.ProcModel Verif.Demo Verif.DemoRun Verif.DemoSpy Verif.SignalProps Verif.DemoFun Verif.CausalProps.
Set Implicit Arguments.
Arguments Z.add : simpl never.
Arguments Z.sub : simpl never.
Arguments Z.mul : simpl never.
Ltac Zify.zify_post_hook ::= Z.div_mod_to_equations.

Section Motion.
Context {E : AEnv}.
Notation arr := (arr Pos Src).
(** the array a with the trajectory tr *)
Definition give_motion (a : arr) (tr : option (Z -> Pos)) : arr := mkArr (a_name a) (a_kind a) (a_num a) (a_pos a) tr (a_dirs a) (a_source a) (a_time_all a) (a_pos_all a).
(** the same collection with other trajectories: the array named k follows [h k] *)
Definition with_motion (h : string -> option (Z -> Pos)) (c : coll E) : coll E := set_arrays c (map (fun kv => (fst kv, give_motion (snd kv) (h (fst kv)))) (c_arrays c)).
(** where the array is at time u *)
Definition place (a : arr) (u : Z) : Pos := match a_traj a with Some tr => tr u | None => a_pos a end.

Variables (h : string -> option (Z -> Pos)).
Lemma dget_motion (d : dict arr) k : dget (map (fun kv => (fst kv, give_motion (snd kv) (h (fst kv)))) d) k = option_map (fun a => give_motion a (h k)) (dget d k).
Proof. induction d as [|[n a] d IH]; cbn [map dget fst snd]; auto. destruct (String.eqb_spec k n); subst; auto. Qed.
Section Lists.
Variables (c c' : coll E).
Hypothesis HA : c_arrays c' = map (fun kv => (fst kv, give_motion (snd kv) (h (fst kv)))) (c_arrays c).
Lemma array_motion k a : the_array c k a -> the_array c' k (give_motion a (h k)).
Proof. unfold the_array. intros H. rewrite HA, dget_motion, H. reflexivity. Qed.
Lemma motion_array k a : the_array c' k a -> exists b, the_array c k b /\ a = give_motion b (h k).
Proof. unfold the_array. rewrite HA, dget_motion. destruct (dget (c_arrays c) k) as [b|]; [|discriminate]. intros H. injection H as <-. eauto. Qed.
Lemma kept_motion {B} (g : arr -> bool) (f : arr -> B) : (forall a x, g (give_motion a x) = g a) -> (forall a x, f (give_motion a x) = f a) ->
  map f (filter g (map snd (c_arrays c'))) = map f (filter g (map snd (c_arrays c))).
Proof.
  intros Hg Hf. rewrite HA. clear HA. induction (c_arrays c) as [|[n a] d IH]; auto. cbn [map filter fst snd]. rewrite Hg. destruct (g a); cbn [map]; rewrite IH, ?Hf; auto.
Qed.
Lemma keys_motion (g : arr -> bool) : (forall a x, g (give_motion a x) = g a) -> map fst (filter (fun kv => g (snd kv)) (c_arrays c')) = map fst (filter (fun kv => g (snd kv)) (c_arrays c)).
Proof.
  intros Hg. rewrite HA. clear HA. induction (c_arrays c) as [|[n a] d IH]; auto. cbn [map filter fst snd]. rewrite Hg. destruct (g a); cbn [map fst]; rewrite IH; auto.
Qed.
Lemma dims_motion {S : SEnv} ct (procs : list (@proc E S)) : coll_ok c -> coll_ok c' -> ref_dims ct c' procs = ref_dims ct c procs.
Proof.
  intros O O'. unfold ref_dims.
  replace (map (fun kv => (a_name (snd kv), a_num (snd kv))) (c_arrays c')) with (map (fun kv => (a_name (snd kv), a_num (snd kv))) (c_arrays c)).
  2: { rewrite HA, map_map. reflexivity. }
  destruct (foldM declare [] _) as [ds|]; cbn [bind]; auto. destruct ct; auto. rewrite (combos_eq O), (combos_eq O'). cbn [bind].
  assert (K : forall l1 l2 : list arr, map (fun sm => (contrib (a_name (fst sm)) (a_name (snd sm)), a_num (snd sm))) (list_prod l1 l2) =
    map (fun x => (contrib (fst x) (fst (snd x)), snd (snd x))) (list_prod (map (fun m => a_name m) l1) (map (fun m => (a_name m, a_num m)) l2))).
  { intros l1 l2. rewrite prod_map, map_map. reflexivity. }
  rewrite !K. rewrite (kept_motion is_source (fun m => a_name m)), (kept_motion is_mic (fun m => (a_name m, a_num m))) by reflexivity. reflexivity.
Qed.
End Lists.

(** the path setup_ir computes for a pair of arrays, unless the user has provided one *)
Lemma setup_made (c0 : coll E) j c s m a b : coll_ok c0 -> setup_ir c0 j = Ok c -> In s (c_src c0) -> In m (c_mic c0) -> the_array c0 s a -> the_array c0 m b ->
  (exists ty g1 g2, lookup2 (c_ptypes c0) s m = Some ty /\ made_path j g1 a b ty g2 (path_of c s m)) \/
  (lookup2 (c_ptypes c0) s m = Some "modified"%string /\ lookup2 (c_paths c) s m = lookup2 (c_paths c0) s m).
Proof.
  intros O HS Hs Hm Ha Hb. destruct (setup_ir_ok _ O HS) as (cs & P & Hc & HR & HN & HL & _ & A & _ & _). destruct (@regenerate_values _ _ _ _ _ _ _ _ HR HN) as [R1 R2].
  pose proof (ok_key O _ Ha) as Na. pose proof (ok_key O _ Hb) as Nb. destruct (combos_names O Hc) as [_ HC].
  assert (Hin : In (a, b) cs). { apply HC. rewrite Na, Nb. split; [exact Ha|]. split; [exact Hb|]. split.
    - destruct (src_array O s Hs) as (a1 & A1 & Q). unfold the_array in *. congruence.
    - destruct (mic_array O m Hm) as (b1 & B1 & Q). unfold the_array in *. congruence. }
  destruct (generated c0 (a, b)) eqn:G.
  - left. destruct (R1 a b) as (ty & g1 & g2 & p & T & M & L). { apply filter_In. auto. } rewrite Na, Nb in *. exists ty, g1, g2. split; auto. unfold path_of. rewrite HL, L. apply create_path_made; auto.
  - right. unfold generated in G. cbn [fst snd] in G. rewrite Na, Nb in G. destruct (lookup2 (c_ptypes c0) s m) as [t|] eqn:T; [|discriminate]. apply negb_false_iff in G. apply String.eqb_eq in G. subst t. split; auto.
    rewrite HL. apply R2. intros Hi. apply in_map_iff in Hi as ([a1 b1] & Q & Hi). cbn [fst snd] in Q. injection Q as Q1 Q2. apply filter_In in Hi as [Hi G1].
    unfold generated in G1. cbn [fst snd] in G1. rewrite Q1, Q2, T in G1. discriminate G1.
Qed.
End Motion.
Arguments setup_made {E c0} j {c s m a b} _ _ _ _ _ _.

Section Law.
Context {E : AEnv} {DE : DEnv}.
Notation arr := (arr Pos Src).
Variables PS0 D0 Out0 : Type.
Variable dsave0 : D0 -> option PS0 -> dict (list frame) -> Z * Z -> res D0.
Variable dout0 : D0 -> Z -> res Out0.
Local Instance MoS : SEnv := full dsave0 dout0.

(** the path in force at time t: made from the places of the arrays at the last update, or provided by the user *)
Lemma in_force i inf (X0 X : coll E) (procs : list (@proc E MoS)) P s m a b t : coll_ok X0 -> setup_ir X0 inf = Ok X ->
  (forall inf t s m a0 b0, c_info X = Some inf -> 1 <= t <= Z.of_nat (run_length i procs) -> In s (c_src X) -> In m (c_mic X) ->
       the_array X s a0 -> the_array X m b0 -> dynamic a0 || dynamic b0 = true ->
       exists ty g1 g2, lookup2 (c_ptypes X) s m = Some ty /\
         made_path inf g1 (placed_at a0 (last_update (array_update_freq inf) t)) (placed_at b0 (last_update (array_update_freq inf) t)) ty g2 (P t s m)) ->
  (forall t s m, 1 <= t <= Z.of_nat (run_length i procs) -> In s (c_src X) -> In m (c_mic X) -> static_pair X s m -> P t s m = path_of X s m) ->
  1 <= t <= Z.of_nat (run_length i procs) -> In s (c_src X0) -> In m (c_mic X0) -> the_array X0 s a -> the_array X0 m b ->
  (exists ty g1 g2, lookup2 (c_ptypes X0) s m = Some ty /\ made_path inf g1 (placed_at a (last_update (array_update_freq inf) t)) (placed_at b (last_update (array_update_freq inf) t)) ty g2 (P t s m)) \/
  (lookup2 (c_ptypes X0) s m = Some "modified"%string /\ P t s m = path_of X0 s m).
Proof.
  intros O HS Pm Ps Ht Hs Hm Ha Hb. destruct (setup_ir_ok _ O HS) as (_ & _ & _ & _ & _ & _ & I1 & A1 & T1 & O1).
  pose proof (sa_arrays A1) as E1. pose proof (sa_src A1) as E2. pose proof (sa_mic A1) as E3. cbn [set_info c_arrays c_src c_mic] in *.
  assert (Ha' : the_array X s a) by (unfold the_array in *; congruence). assert (Hb' : the_array X m b) by (unfold the_array in *; congruence).
  destruct (dynamic a || dynamic b) eqn:Q.
  - left. rewrite <- T1. apply (Pm inf t s m a b); auto; congruence.
  - assert (D1 : a_traj a = None) by (unfold dynamic in Q; destruct (a_traj a); [discriminate|reflexivity]). assert (D2 : a_traj b = None) by (unfold dynamic in Q; destruct (a_traj a), (a_traj b); try discriminate; reflexivity).
    rewrite (Ps t s m); [|exact Ht|congruence|congruence|intros a1 b1 X1 X2; unfold the_array in *; split; congruence].
    unfold placed_at. rewrite D1, D2. destruct (setup_made _ O HS Hs Hm Ha Hb) as [K|[K1 K2]]; [left; exact K|right]. split; auto. unfold path_of. rewrite K2. reflexivity.
Qed.
Lemma not_modified inf g1 (a b : arr) g2 p : ~ made_path inf g1 a b "modified" g2 p.
Proof. intros (q & R & _). inversion R. Qed.

(** two collections that differ in their trajectories only, set up and simulated *)
Variables (i inf : info) (h : string -> option (Z -> Pos)) (c0 c c' : coll E) (procs : list (@proc E MoS)) (diags diags' : dict (diag D)) (st st' : sim).
Hypothesis O0 : coll_ok c0.
Hypothesis HS : setup_ir c0 inf = Ok c.
Hypothesis HS' : setup_ir (with_motion h c0) inf = Ok c'.
Hypothesis HX : experiment i c procs.
Hypothesis HD : good_diags i diags.
Hypothesis HR : run_simulation i c procs diags = Ok st.
Hypothesis HX' : experiment i c' procs.
Hypothesis HD' : good_diags i diags'.
Hypothesis HR' : run_simulation i c' procs diags' = Ok st'.
Lemma other_ok : coll_ok (with_motion h c0).
Proof.
  constructor.
  - unfold with_motion, set_arrays. cbn [c_arrays]. unfold dkeys. rewrite map_map. exact (ok_names O0).
  - intros k a H. destruct (@motion_array _ h c0 (with_motion h c0) eq_refl _ _ H) as (b & Hb & ->). exact (ok_key O0 k Hb).
  - rewrite (@keys_motion _ h c0 (with_motion h c0) eq_refl) by reflexivity. exact (ok_mic O0).
  - rewrite (@keys_motion _ h c0 (with_motion h c0) eq_refl) by reflexivity. exact (ok_src O0).
  - rewrite (@keys_motion _ h c0 (with_motion h c0) eq_refl) by reflexivity. exact (ok_free O0).
  - exact (ok_paths O0).
  - exact (ok_types O0).
Qed.
Lemma same_dims : dims_of i c' procs = dims_of i c procs.
Proof.
  destruct (setup_ir_ok _ O0 HS) as (_ & _ & _ & _ & _ & _ & _ & A1 & _ & O1). destruct (setup_ir_ok _ other_ok HS') as (_ & _ & _ & _ & _ & _ & _ & A2 & _ & O2).
  unfold dims_of. rewrite (dims_motion h (c := c) (c' := c')); auto. rewrite (sa_arrays A1), (sa_arrays A2). reflexivity.
Qed.
(** whenever positions are updated, the arrays are in the same places *)
Definition meet : Prop := forall k a u, the_array c0 k a -> 0 <= u -> (array_update_freq inf | u) -> place (give_motion a (h k)) u = place a u.
(** C111.  Paths are made without random numbers.  If all arrays are in the same places whenever positions are updated, all signals are the same, however the arrays move in
    between; in particular an array that follows a trajectory that stays where it is behaves as a stationary array. *)
Theorem C111_same_places : meet -> (forall s m ty, In s (c_src c0) -> In m (c_mic c0) -> lookup2 (c_ptypes c0) s m = Some ty -> repeatable inf ty) ->
  forall nm t, t <= Z.of_nat (run_length i procs) -> signals_of i c' procs nm t = signals_of i c procs nm t.
Proof.
  intros HM HP.
  pose proof other_ok as O0'.
  destruct (setup_ir_ok _ O0 HS) as (_ & _ & _ & _ & _ & _ & I1 & A1 & T1 & O1). destruct (setup_ir_ok _ O0' HS') as (_ & _ & _ & _ & _ & _ & I2 & A2 & T2 & O2).
  pose proof (sa_arrays A1) as E1. pose proof (sa_src A1) as E2. pose proof (sa_mic A1) as E3. pose proof (sa_free A1) as E4.
  pose proof (sa_arrays A2) as F1. pose proof (sa_src A2) as F2. pose proof (sa_mic A2) as F3. pose proof (sa_free A2) as F4.
  cbn [set_info with_motion set_arrays c_arrays c_src c_mic c_free c_ptypes] in *.
  assert (HA : c_arrays c' = map (fun kv => (fst kv, give_motion (snd kv) (h (fst kv)))) (c_arrays c)) by (rewrite F1, E1; reflexivity).
  assert (Refl : forall p, same_path p p) by (intros p; repeat split; auto).
  assert (Al : forall (a : arr) x, alike (give_motion a x) a) by (intros; repeat split).
  assert (First : forall s m, In s (c_src c0) -> In m (c_mic c0) -> same_path (path_of c' s m) (path_of c s m)).
  { intros s m Hs Hm. destruct (src_array O0 s Hs) as (a & Ha & _). destruct (mic_array O0 m Hm) as (b & Hb & _).
    destruct (setup_made _ O0 HS Hs Hm Ha Hb) as [(ty & g1 & g2 & L1 & M1)|[L1 M1]]; destruct (setup_made (s := s) (m := m) _ O0' HS' Hs Hm (@array_motion _ h c0 (with_motion h c0) eq_refl _ _ Ha) (@array_motion _ h c0 (with_motion h c0) eq_refl _ _ Hb)) as [(ty' & g1' & g2' & L2 & M2)|[L2 M2]]; cbn [with_motion set_arrays c_ptypes c_paths] in *.
    - assert (ty' = ty) by congruence. subst ty'. exact (HP s m ty Hs Hm L1 _ _ _ _ _ _ _ _ _ _ (Al _ _) (Al _ _) M2 M1).
    - assert (ty = "modified"%string) by congruence. subst ty. destruct (not_modified M1).
    - assert (ty' = "modified"%string) by congruence. subst ty'. destruct (not_modified M2).
    - unfold path_of. rewrite M1, M2. apply Refl. }
  destruct (run_facts HX HD HR) as (r & P & H1 & Hb & Hds & Hr & Es & C1 & C2 & C3 & HN & P0 & Pm & Ps & L & St & _).
  destruct (run_facts HX' HD' HR') as (r' & P' & H1' & Hb' & Hds' & Hr' & Es' & C1' & C2' & C3' & HN' & P0' & Pm' & Ps' & L' & St' & _).
  assert (ED : dims_of i c' procs = dims_of i c procs) by (unfold dims_of; rewrite (dims_motion h HA _ _ O1 O2); reflexivity). rewrite ED in *. rewrite Es, Es'. clear Es Es'.
  assert (Paths : forall t s m, t <= Z.of_nat (run_length i procs) -> In s (c_src c) -> In m (c_mic c) -> same_path (P' t s m) (P t s m)).
  { intros t s m Ht Hs Hm. rewrite E2 in Hs. rewrite E3 in Hm. destruct (Z_le_gt_dec t 0); [rewrite P0, P0' by lia; apply First; auto|].
    destruct (src_array O0 s Hs) as (a & Ha & _). destruct (mic_array O0 m Hm) as (b & Hmb & _).
    assert (Al2 : forall k a, the_array c0 k a -> alike (placed_at (give_motion a (h k)) (last_update (array_update_freq inf) t)) (placed_at a (last_update (array_update_freq inf) t))).
    { intros k a0 Hk. assert (K : place (give_motion a0 (h k)) (last_update (array_update_freq inf) t) = place a0 (last_update (array_update_freq inf) t)).
      { apply HM; auto; unfold last_update; [apply Z.mul_nonneg_nonneg; [|lia]; destruct (Z.eq_dec (array_update_freq inf) 0) as [->|]; [cbn; rewrite Zdiv_0_r; lia|apply Z.div_pos; lia]|]. apply Z.divide_mul_r. apply Z.divide_abs_r. apply Z.divide_refl. }
      unfold place, placed_at in *. cbn [give_motion a_traj a_pos] in *. destruct (h k), (a_traj a0); repeat split; auto. }
    assert (Ht1 : 1 <= t <= Z.of_nat (run_length i procs)) by lia.
    destruct (@in_force i inf c0 c procs P s m a b t O0 HS Pm Ps Ht1 Hs Hm Ha Hmb) as [(ty & g1 & g2 & X1 & M1)|[X1 M1]];
      destruct (@in_force i inf (with_motion h c0) c' procs P' s m (give_motion a (h s)) (give_motion b (h m)) t O0' HS' Pm' Ps' Ht1 Hs Hm (@array_motion _ h c0 (with_motion h c0) eq_refl _ _ Ha) (@array_motion _ h c0 (with_motion h c0) eq_refl _ _ Hmb)) as [(ty' & g1' & g2' & X2 & M2)|[X2 M2]]; cbn [with_motion set_arrays c_ptypes c_paths] in *.
    - assert (ty' = ty) by congruence. subst ty'. exact (HP s m ty Hs Hm X1 _ _ _ _ _ _ _ _ _ _ (Al2 _ _ Ha) (Al2 _ _ Hmb) M2 M1).
    - assert (ty = "modified"%string) by congruence. subst ty. destruct (not_modified M1).
    - assert (ty' = "modified"%string) by congruence. subst ty'. destruct (not_modified M2).
    - rewrite M1, M2. apply Refl. }
  assert (S1 : c_src c' = c_src c) by congruence. assert (S2 : c_mic c' = c_mic c) by congruence. assert (S3 : c_free c' = c_free c) by congruence.
  rewrite <- E2, <- E3 in First. clear HM HP.
  set (N := Z.of_nat (run_length i procs)) in *. set (ct := save_source_contributions i) in *. set (n0 := first_request (early_start i)) in *. set (ds := dims_of i c procs) in *.
  assert (Free : forall k t, In k (c_free c) -> t <= N -> r_tl r' k t = r_tl r k t).
  { intros k t Hk Ht. destruct (proj1 (free_names k (ex_coll HX)) Hk) as (a & Ha & _). destruct (l_draw L Hk Ha) as (x1 & _ & X1 & _ & _ & X2). destruct (l_draw L' (k := k) (ltac:(congruence)) (@array_motion _ h c c' HA _ _ Ha)) as (y1 & _ & Y1 & _ & _ & Y2).
    rewrite X2, Y2 by lia. cbn [give_motion a_source a_num] in *. replace y1 with x1 by congruence. reflexivity. }
  (* a source at a time before which everything agrees *)
  assert (Source : forall s u, In s (c_src c) -> u <= N -> (forall nm v, v < u -> r_tl r' nm v = r_tl r nm v) -> r_tl r' s u = r_tl r s u).
  { intros s u Hs Hu IH. destruct (in_dec string_dec s (c_free c)) as [Hf|Hf]; [apply Free; auto|].
    assert (Hnm : ~ In s (c_mic c)) by (intros Hm; exact (@mic_not_src _ c s (ex_coll HX) Hm Hs)). destruct (src_array (ex_coll HX) s Hs) as (a & Ha & _).
    assert (W : ct = false \/ forall s0 m, In s0 (c_src c) -> In m (c_mic c) -> s <> contrib s0 m). { destruct (bool_dec ct true) as [Qc|Qc]; [right|left; destruct ct; congruence]. intros s0 m Hs0 Hm. apply (no_arr HN Qc) with (a := a); auto. }
    rewrite (l_rest L Hf W (or_introl Hnm)), (l_rest L' (nm := s)); try rewrite S1; try rewrite S2; try rewrite S3; auto. apply written_local; auto. }
  assert (Kinds : forall nm, In nm (c_free c) \/ In nm (c_mic c) \/ (ct = true /\ exists s m, In s (c_src c) /\ In m (c_mic c) /\ nm = contrib s m) \/
    (~ In nm (c_free c) /\ ~ In nm (c_mic c) /\ (ct = false \/ forall s m, In s (c_src c) -> In m (c_mic c) -> nm <> contrib s m))).
  { intros nm. destruct (in_dec string_dec nm (c_free c)); auto. destruct (in_dec string_dec nm (c_mic c)); auto. right; right. destruct (bool_dec ct true) as [Qc|Qc].
    2: { right. split; auto. split; auto. left. destruct ct; congruence. }
    destruct (in_dec string_dec nm (map (fun sm => contrib (fst sm) (snd sm)) (list_prod (c_src c) (c_mic c)))) as [Hin|Hin].
    - left. split; auto. apply in_map_iff in Hin as ([s m] & <- & Hin). apply in_prod_iff in Hin as [A B]. eauto.
    - right. split; auto. split; auto. right. intros s m Hs Hm ->. apply Hin. apply in_map_iff. exists (s, m). split; auto. apply in_prod; auto. }
  (* before the first step *)
  assert (Start : forall tl nm u, u <= 0 -> written ds tl procs N nm u = silent ds nm).
  { intros tl nm u Hu. unfold written. destruct procs as [|p [|]]; auto. inversion Hb; subst. destruct (Z.leb_spec 1 (u / pr_bs p)); auto. nia. }
  assert (Source0 : forall s u, In s (c_src c) -> u <= 0 -> r_tl r' s u = r_tl r s u).
  { intros s u Hs Hu. destruct (in_dec string_dec s (c_free c)) as [Hf|Hf]; [apply Free; auto; lia|].
    assert (Hnm : ~ In s (c_mic c)) by (intros Hm; exact (@mic_not_src _ c s (ex_coll HX) Hm Hs)). destruct (src_array (ex_coll HX) s Hs) as (a & Ha & _).
    assert (W : ct = false \/ forall s0 m, In s0 (c_src c) -> In m (c_mic c) -> s <> contrib s0 m). { destruct (bool_dec ct true) as [Qc|Qc]; [right|left; destruct ct; congruence]. intros s0 m Hs0 Hm. apply (no_arr HN Qc) with (a := a); auto. }
    rewrite (l_rest L Hf W (or_introl Hnm)), (l_rest L' (nm := s)); try rewrite S1; try rewrite S2; try rewrite S3; auto. rewrite !Start; auto. }
  assert (Base : forall nm u, u <= 0 -> r_tl r' nm u = r_tl r nm u).
  { intros nm u Hu. destruct (Kinds nm) as [K|[K|[(Qc & s & m & Hs & Hm & ->)|(K1 & K2 & K3)]]].
    - apply Free; auto; lia.
    - destruct (mic_array (ex_coll HX) nm K) as (b & Hmb & _). rewrite (st_mic St K Hmb Hu), (st_mic St' (m := nm) (ltac:(congruence)) (@array_motion _ h c c' HA _ _ Hmb) Hu). cbn [give_motion a_num]. rewrite S1.
      destruct (start_mic (early_start i) u) as [v|] eqn:Qv; auto. f_equal. apply map_ext_in. intros s Hs. apply response_same; [apply First; auto|]. intros w Hw. apply Source0; auto.
      unfold start_mic in Qv. destruct (early_start i) as [n|]; [destruct ((1 - n <=? u) && (u <=? 0)); [|discriminate]; injection Qv as <-; lia|]. destruct (u <=? 0); [|discriminate]. injection Qv as <-. lia.
    - destruct (mic_array (ex_coll HX) m Hm) as (b & Hmb & _). rewrite (st_con St Qc s Hs Hm Hmb Hu), (st_con St' Qc s (eq_ind_r (In s) Hs S1) (eq_ind_r (In m) Hm S2) (@array_motion _ h c c' HA _ _ Hmb) Hu). cbn [give_motion a_num].
      destruct (1 - _ <=? u); auto. apply response_same; [apply First; auto|]. intros w Hw. apply Source0; auto; lia.
    - rewrite (l_rest L K1 K3 (or_introl K2)), (l_rest L' (nm := nm)); try rewrite S1; try rewrite S2; try rewrite S3; auto. rewrite !Start; auto. }
  (* the steps *)
  assert (Step : forall n nm u, u <= Z.of_nat n -> u <= N -> r_tl r' nm u = r_tl r nm u).
  { induction n as [|n IH]; intros nm u Hu HuT; [apply Base; lia|]. destruct (Z_le_gt_dec u (Z.of_nat n)); [apply IH; lia|]. destruct (Z_le_gt_dec u 0); [apply Base; lia|].
    assert (Past : forall nm v, v < u -> r_tl r' nm v = r_tl r nm v) by (intros nm' v Hv; apply IH; lia).
    assert (Now : forall s v, In s (c_src c) -> v <= u -> r_tl r' s v = r_tl r s v). { intros s v Hs Hv. destruct (Z.eq_dec v u) as [->|]; [|apply Past; lia]. apply Source; auto. }
    destruct (Kinds nm) as [K|[K|[(Qc & s & m & Hs & Hm & ->)|(K1 & K2 & K3)]]].
    - apply Free; auto.
    - destruct (mic_array (ex_coll HX) nm K) as (b & Hmb & _). rewrite (l_out L K Hmb), (l_out L' (m := nm) (ltac:(congruence)) (@array_motion _ h c c' HA _ _ Hmb)) by lia. cbn [give_motion a_num]. rewrite S1.
      assert (W : written ds (r_tl r') procs N nm u = written ds (r_tl r) procs N nm u) by (apply written_local; auto). rewrite W. f_equal. apply map_ext_in. intros s Hs. apply response_same; [apply Paths; auto; lia|]. intros v Hv. apply Now; auto.
    - rewrite (l_con L Qc s m Hs Hm), (l_con L' Qc s m (eq_ind_r (In s) Hs S1) (eq_ind_r (In m) Hm S2)) by lia. apply response_same; [apply Paths; auto; lia|]. intros v Hv. apply Now; auto.
    - rewrite (l_rest L K1 K3 (or_introl K2)), (l_rest L' (nm := nm)); try rewrite S1; try rewrite S2; try rewrite S3; auto. apply written_local; auto. }
  intros nm t Ht. apply (Step (Z.to_nat t)); lia.
Qed.
Theorem C111_recorded : meet -> (forall s m ty, In s (c_src c0) -> In m (c_mic c0) -> lookup2 (c_ptypes c0) s m = Some ty -> repeatable inf ty) ->
  forall dn dn' nm num, 0 <= num -> dget (dims_of i c procs) nm = Some num -> records i diags dn nm num -> records i diags' dn' nm num ->
  exists x x', recording i st dn x /\ recording i st' dn' x' /\ forall t, 0 <= t < tot_samples i -> x' t = x t.
Proof.
  intros HM HP dn dn' nm num H0 Hn R R'. exists (signals_of i c procs nm), (signals_of i c' procs nm). split; [|split].
  - eapply (recorded_signal HX HD HR); eauto.
  - eapply (recorded_signal HX' HD' HR'); eauto. exact (eq_trans (f_equal (fun d => dget d nm) same_dims) Hn).
  - intros t Ht. apply C111_same_places; auto. pose proof (run_longer HX HD HR). lia.
Qed.
(** C111.  Arrays without trajectories, some of which are given one that does not move. *)
Corollary C111_unmoving : stationary c0 -> (forall k a tr, the_array c0 k a -> h k = Some tr -> forall u, tr u = a_pos a) ->
  (forall s m ty, In s (c_src c0) -> In m (c_mic c0) -> lookup2 (c_ptypes c0) s m = Some ty -> repeatable inf ty) ->
  forall nm t, t <= Z.of_nat (run_length i procs) -> signals_of i c' procs nm t = signals_of i c procs nm t.
Proof.
  intros HSt HT HP. apply C111_same_places; auto. intros k a u Ha _ _. unfold place. cbn [give_motion a_traj a_pos]. rewrite (HSt _ _ Ha). destruct (h k) as [tr|] eqn:Q; [exact (HT k a tr Ha Q u)|reflexivity].
Qed.
End Law.

(* ------------------------------------------------------------------ Examples *)
Section Examples.
Local Open Scope string_scope.
Local Existing Instances fdemo fdemo_d fdemo_s.
Let i1 := run_info 10 5 false true.
Let up (t : Z) : Z := (t + 5)%Z.
Definition fbefore (l : list (arr Pos Src)) : res (coll fdemo) := c <- add_all (empty_coll (0%Z : G)) l ;; set_default_path_type c "ism".
Lemma fcoll_before i l c : Forall (sized (fun _ => 1%Z)) l -> fcoll i l = Ok c -> exists c0, fbefore l = Ok c0 /\ setup_ir c0 i = Ok c /\ coll_ok c0.
Proof.
  unfold fcoll, fbefore. intros HF H. apply bind_ok in H as (c1 & Q1 & H). apply bind_ok in H as (c0 & Q0 & H). exists c0. rewrite Q1. cbn [bind]. split; [exact Q0|]. split; [exact H|].
  eapply (built_ok (Q := sized (fun _ => 1%Z))). eapply built_default; [|exact Q0].
  assert (K : forall l (c c' : coll fdemo), Forall (sized (fun _ => 1%Z)) l -> built (sized (fun _ => 1%Z)) c -> add_all c l = Ok c' -> built (sized (fun _ => 1%Z)) c').
  { unfold add_all. clear. induction l as [|a l IH]; simpl; intros c c' F B H; [inversion H; subst; auto|]. inversion F; subst.
    apply bind_ok in H as (c5 & H5 & H). destruct (add_array c a) as [c6 [u|]] eqn:Q; inversion H5; subst.
    apply (IH c5 c'); auto. eapply built_add; eauto. }
  eapply K; [exact HF|constructor|exact Q1].
Qed.
(** the microphone moves steadily, or jumps from place to place every time positions are updated *)
Let steadily (t : Z) : Z := t.
Let jumps (t : Z) : Z := (t / 4 * 4)%Z.
Let h (k : string) : option (Z -> Pos) := if String.eqb k "mic" then Some jumps else None.
Example C111_example : exists c0 c c' d st d' st', coll_ok c0 /\ setup_ir c0 i1 = Ok c /\ setup_ir (with_motion h c0) i1 = Ok c' /\
  experiment i1 c [fecho 3 5] /\ good_diags i1 d /\ run_simulation i1 c [fecho 3 5] d = Ok st /\
  experiment i1 c' [fecho 3 5] /\ good_diags i1 d' /\ run_simulation i1 c' [fecho 3 5] d' = Ok st' /\ meet i1 h c0 /\
  (forall s m ty, In s (c_src c0) -> In m (c_mic c0) -> lookup2 (c_ptypes c0) s m = Some ty -> repeatable i1 ty) /\
  forall nm, In nm ["mic"; "src"; "spk"] -> dget (dims_of i1 c [fecho 3 5]) nm = Some 1%Z /\ records i1 d nm nm 1 /\ records i1 d' nm nm 1.
Proof.
  assert (N : NoDup ["mic"; "src"; "spk"]) by (repeat constructor; simpl; intuition discriminate).
  destruct (frun_meets i1 (froom (Some steadily) up) [(3, 5)] ["mic"; "src"; "spk"]) as (c & d & st & Hc & Hd & A & B & C); [vm_compute; reflexivity|apply froom_sized|cbn; lia|exact N|vm_compute; reflexivity|].
  destruct (frun_meets i1 (froom (Some jumps) up) [(3, 5)] ["mic"; "src"; "spk"]) as (c' & d' & st' & Hc' & Hd' & A' & B' & C'); [vm_compute; reflexivity|apply froom_sized|cbn; lia|exact N|vm_compute; reflexivity|].
  destruct (fcoll_before _ (froom_sized _ _) Hc) as (c0 & X1 & X2 & X3). destruct (fcoll_before _ (froom_sized _ _) Hc') as (c0' & Y1 & Y2 & Y3).
  assert (Ec : c0' = with_motion h c0).
  { assert (K : get (fbefore (froom (Some steadily) up)) (with_motion h) = get (fbefore (froom (Some jumps) up)) (fun c => c)) by (vm_compute; reflexivity).
    rewrite X1, Y1 in K. cbn [get] in K. exact (f_equal (fun o => match o with Some x => x | None => c0' end) (eq_sym K)). }
  subst c0'.
  assert (F : forall A (f : coll fdemo -> A) x, get (fbefore (froom (Some steadily) up)) f = Some x -> f c0 = x). { intros T f x K. rewrite X1 in K. cbn [get] in K. injection K as K. exact K. }
  pose proof (F _ (fun c => c_arrays c) _ (ltac:(vm_compute; reflexivity))) as Q1. cbv beta in Q1.
  pose proof (F _ (fun c => c_ptypes c) _ (ltac:(vm_compute; reflexivity))) as Q4. cbv beta in Q4.
  pose proof (fcoll_is _ _ _ _ (fun c => dims_of i1 c [fecho 3 5]) _ Hc (ltac:(vm_compute; reflexivity))) as Q5. cbv beta in Q5.
  destruct (frecorders_get _ _ _ Hd) as [_ K]. destruct (frecorders_get _ _ _ Hd') as [_ K'].
  exists c0, c, c', d, st, d', st'. split; [exact X3|]. split; [exact X2|]. split; [exact Y2|]. split; [exact A|]. split; [exact B|]. split; [exact C|]. split; [exact A'|]. split; [exact B'|]. split; [exact C'|].
  split; [|split].
  - intros k a u Ha Hu [q ->]. unfold the_array in Ha. rewrite Q1 in Ha. cbn [dget] in Ha. unfold place, h. cbn [give_motion a_traj a_pos]. destruct (String.eqb k "mic"); [injection Ha as <-|].
    + cbn [a_traj]. unfold jumps. change (array_update_freq i1) with 4%Z. rewrite Z_div_mult by lia. reflexivity.
    + repeat (destruct (String.eqb _ _); [injection Ha as <-; reflexivity|]). discriminate Ha.
  - intros s m ty _ _ Hl. rewrite Q4 in Hl. apply repeatable_types.
    + intros ->. unfold lookup2 in Hl. cbn [dget] in Hl. repeat (destruct (String.eqb _ _); cbn [dget] in Hl); try discriminate Hl.
    + reflexivity.
    + intros par g g' x y h0 p h' p' _ Z1 Z2. cbn in Z1, Z2. injection Z1 as _ <-. injection Z2 as _ <-. reflexivity.
    + intros p q sr fr HS. exact HS.
  - intros nm Hn. split; [rewrite Q5; repeat (destruct Hn as [<-|Hn]; [reflexivity|]); destruct Hn|]. split; [apply K; exact Hn|apply K'; exact Hn].
Qed.
(** the two trajectories differ, the recordings do not; nor does it matter whether the microphone stays where it is because it has no trajectory or because of its trajectory *)
Example C111_values : let mic tr := frecs (frun i1 (froom tr up) [(3, 5)] ["mic"; "src"; "spk"]) ["mic"] in
  steadily 3 <> jumps 3 /\ mic (Some steadily) = mic (Some jumps) /\ mic (Some (fun _ => 0%Z)) = mic None /\ mic (Some steadily) <> mic None.
Proof. cbv zeta. split; [discriminate|]. split; [vm_compute; reflexivity|]. split; [vm_compute; reflexivity|]. vm_compute. discriminate. Qed.
Let stays (k : string) : option (Z -> Pos) := if String.eqb k "mic" then Some (fun _ => 0%Z : Pos) else None.
Example C111_unmoving_example : exists c0 c c' d st d' st', coll_ok c0 /\ setup_ir c0 i1 = Ok c /\ setup_ir (with_motion stays c0) i1 = Ok c' /\
  experiment i1 c [fecho 3 5] /\ good_diags i1 d /\ run_simulation i1 c [fecho 3 5] d = Ok st /\
  experiment i1 c' [fecho 3 5] /\ good_diags i1 d' /\ run_simulation i1 c' [fecho 3 5] d' = Ok st' /\ stationary c0 /\ ~ stationary (with_motion stays c0) /\
  (forall k a tr, the_array c0 k a -> stays k = Some tr -> forall u, tr u = a_pos a).
Proof.
  assert (N : NoDup ["mic"; "src"; "spk"]) by (repeat constructor; simpl; intuition discriminate).
  destruct (frun_meets i1 (froom None up) [(3, 5)] ["mic"; "src"; "spk"]) as (c & d & st & Hc & Hd & A & B & C); [vm_compute; reflexivity|apply froom_sized|cbn; lia|exact N|vm_compute; reflexivity|].
  destruct (frun_meets i1 (froom (Some (fun _ => 0%Z)) up) [(3, 5)] ["mic"; "src"; "spk"]) as (c' & d' & st' & Hc' & Hd' & A' & B' & C'); [vm_compute; reflexivity|apply froom_sized|cbn; lia|exact N|vm_compute; reflexivity|].
  destruct (fcoll_before _ (froom_sized _ _) Hc) as (c0 & X1 & X2 & X3). destruct (fcoll_before _ (froom_sized _ _) Hc') as (c0' & Y1 & Y2 & Y3).
  assert (Ec : c0' = with_motion stays c0).
  { assert (K : get (fbefore (froom None up)) (with_motion stays) = get (fbefore (froom (Some (fun _ => 0%Z)) up)) (fun c => c)) by (vm_compute; reflexivity).
    rewrite X1, Y1 in K. cbn [get] in K. exact (f_equal (fun o => match o with Some x => x | None => c0' end) (eq_sym K)). }
  subst c0'.
  assert (F : forall A (f : coll fdemo -> A) x, get (fbefore (froom None up)) f = Some x -> f c0 = x). { intros T f x K. rewrite X1 in K. cbn [get] in K. injection K as K. exact K. }
  pose proof (F _ (fun c => c_arrays c) _ (ltac:(vm_compute; reflexivity))) as Q1. cbv beta in Q1.
  exists c0, c, c', d, st, d', st'. split; [exact X3|]. split; [exact X2|]. split; [exact Y2|]. split; [exact A|]. split; [exact B|]. split; [exact C|]. split; [exact A'|]. split; [exact B'|]. split; [exact C'|].
  split; [|split].
  - intros k a Ha. unfold the_array in Ha. rewrite Q1 in Ha. cbn [dget] in Ha. repeat (destruct (String.eqb _ _); [injection Ha as <-; reflexivity|]). discriminate Ha.
  - intros HS. specialize (HS "mic"). unfold the_array, with_motion, set_arrays in HS. cbn [c_arrays] in HS. rewrite Q1 in HS. cbn [map dget fst snd String.eqb] in HS. specialize (HS _ eq_refl). cbn in HS. discriminate HS.
  - intros k a tr Ha Hk u. unfold the_array in Ha. rewrite Q1 in Ha. cbn [dget] in Ha. unfold stays in Hk. destruct (String.eqb k "mic"); [|discriminate Hk]. injection Ha as <-. injection Hk as <-. reflexivity.
Qed.
End Examples.
Print Assumptions C111_same_places.
Print Assumptions C111_recorded.
Print Assumptions C111_unmoving.
