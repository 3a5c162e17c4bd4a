(** The reference run in closed form: the situation before the first step, and the whole run. *)
Require Import Verif.PyBase Verif.PyLemmas Verif.ConfigModel Verif.ArrayModel Verif.ArraySpec Verif.ArrayProofs Verif.ArrayPaths
  Verif.LoggerModel Verif.SimModel Verif.SimSpec Verif.SimRefine Verif.SimRun Verif.SimDiag Verif.SimLoop
  Verif.SignalSpec Verif.SignalPass Verif.SignalRun Verif.SignalLaw Verif.SignalInv.
Set Implicit Arguments.
Arguments Z.add : simpl never.
Arguments Z.sub : simpl never.
Arguments Z.mul : simpl never.
Ltac Zify.zify_post_hook ::= Z.div_mod_to_equations.

Section Start.
Context {E : AEnv} {S : SEnv}.
Notation arr := (arr Pos Src).
Variables (ct : bool) (ds : dims) (c0 : coll E) (procs : list (@proc E S)) (early : option Z).
Hypothesis HO : coll_ok c0.
Hypothesis HN : names_ok ct ds c0.
Hypothesis HS : shaped c0.
Hypothesis Hb : blocks_ok procs.
Hypothesis Hone : zlen procs <= 1.
Hypothesis Hnum : forall k a, the_array c0 k a -> 0 <= a_num a.
Hypothesis Hn0 : 1 <= first_request early.
Notation n0 := (first_request early).

Definition first_pick : Z -> option Z := match early with None => pick0 | Some n => pick_from (1 - n) 1 end.
Lemma prepare_parts r0 : ref_prepare ct early ds c0 procs = Ok r0 -> exists fs tl2 cs,
  filters_init c0 = Ok fs /\ foldM (ref_free ds (1 - n0) n0) (c0, silence ds) (c_free c0) = Ok (r_coll r0, tl2) /\
  mic_src_combos (r_coll r0) = Ok cs /\
  pass_rel ct ds (1 - n0) 1 first_pick (pair_names cs) (fs, tl2) (r_flt r0, r_tl r0) /\ r_procs r0 = procs.
Proof.
  intros H. unfold ref_prepare in H. apply bind_ok in H as (fs & H1 & H). unfold first_pick. destruct early as [n|]; cbn [first_request] in *.
  - apply bind_ok in H as ([c2 tl2] & H3 & H). apply bind_ok in H as (cs & H4 & H). apply bind_ok in H as ([fs2 tl3] & H6 & H).
    inversion H; subst; clear H. cbn [r_coll r_procs r_flt r_tl fst snd]. exists fs, tl2, cs. repeat (split; [assumption|]). split; auto.
    eapply pass_fold; [|exact H6]. intros acc sm acc' Q. apply ref_pair_early_rel; auto. lia.
  - apply bind_ok in H as ([c2 tl2] & H3 & H). apply bind_ok in H as (cs & H4 & H). apply bind_ok in H as ([fs2 tl3] & H6 & H).
    inversion H; subst; clear H. cbn [r_coll r_procs r_flt r_tl fst snd]. exists fs, tl2, cs. repeat (split; [assumption|]). split; auto.
    eapply pass_fold; [|exact H6]. intros acc sm acc' Q. apply ref_pair_0_rel; auto.
Qed.
Lemma prepare_wide r0 : ref_prepare ct early ds c0 procs = Ok r0 -> wide ds (r_tl r0).
Proof.
  intros H. unfold ref_prepare in H. apply bind_ok in H as (fs & H1 & H).
  assert (I0 : tl_inv ds 1 (silence ds)) by apply silence_inv.
  destruct early as [n|]; cbn [first_request] in *; apply bind_ok in H as ([c2 tl2] & H3 & H); apply bind_ok in H as (cs & H4 & H);
    apply bind_ok in H as ([fs2 tl3] & H6 & H); inversion H; subst; clear H; cbn [r_tl snd].
  - assert (I1 : tl_inv ds 1 (snd (c2, tl2))).
    { refine (@foldM_bind_inv _ _ _ (fun acc => tl_inv ds 1 (snd acc)) _ (c0, silence ds) _ I0 _ H3).
      intros a x a' Ha Hx. eapply ref_free_inv; [| |exact Ha|exact Hx]; lia. }
    assert (I2 : tl_inv ds 1 (snd (fs2, tl3))).
    { refine (@foldM_bind_inv _ _ _ (fun acc => tl_inv ds 1 (snd acc)) _ (fs, tl2) _ I1 _ H6).
      intros a x a' Ha Hx. eapply ref_pair_early_inv; [|exact Ha|exact Hx]; lia. }
    apply I2.
  - assert (I1 : tl_inv ds 1 (snd (c2, tl2))).
    { refine (@foldM_bind_inv _ _ _ (fun acc => tl_inv ds 1 (snd acc)) _ (c0, silence ds) _ I0 _ H3).
      intros a x a' Ha Hx. eapply ref_free_inv; [| |exact Ha|exact Hx]; lia. }
    assert (I2 : tl_inv ds 1 (snd (fs2, tl3))).
    { refine (@foldM_bind_inv _ _ _ (fun acc => tl_inv ds 1 (snd acc)) _ (fs, tl2) _ I1 _ H6).
      intros a x a' Ha Hx. eapply ref_pair_at_0_inv; [exact Ha|exact Hx]. }
    apply I2.
Qed.

Lemma silence_at nm u d : dget ds nm = Some d -> silence ds nm u = zeros d.
Proof. intros H. unfold silence. rewrite H. auto. Qed.
Lemma zrep_map (x : frame) n (f : Z -> frame) a b : n = b - a -> (forall u, a <= u < b -> f u = x) -> zrep n x = map f (zrange a b).
Proof.
  intros -> H. apply zget_ext. intros i. rewrite zget_zrep, zget_map, zget_zrange.
  destruct (Z.leb_spec 0 i), (Z.ltb_spec i (b - a)); simpl; auto. rewrite H by lia. auto.
Qed.

Lemma law_start P r0 : (forall s m, P 0 s m = path_of c0 s m) -> ref_prepare ct early ds c0 procs = Ok r0 ->
  Law ct ds c0 procs n0 P 0 r0 /\ start_law ct early c0 (r_tl r0).
Proof.
  intros HP H. pose proof (prepare_wide H) as W. destruct (prepare_parts H) as (fs & tl2 & cs & H1 & H3 & H4 & H6 & Hps).
  assert (Hn : 0 <= n0) by lia.
  destruct (@free_fold _ ds (1 - n0) n0 Hn _ _ _ _ _ (@NoDup_free _ _ HO) HO H3) as (F1 & F2 & F3 & F4).
  assert (Emic : c_mic (r_coll r0) = c_mic c0). { rewrite F2. auto. }
  assert (Esrc : c_src (r_coll r0) = c_src c0). { rewrite F2. auto. }
  assert (Efree : c_free (r_coll r0) = c_free c0). { rewrite F2. auto. }
  assert (Epaths : c_paths (r_coll r0) = c_paths c0). { rewrite F2. auto. }
  assert (Harr : forall k a0, the_array c0 k a0 -> exists a, the_array (r_coll r0) k a /\ same_array a0 a).
  { intros k a0 Hk. destruct (in_dec string_dec k (c_free c0)) as [Hf|Hf].
    - destruct (F3 k Hf) as (a2 & src & d & G1 & G2 & G3 & G4 & G5). assert (a2 = a0) by (unfold the_array in *; congruence). subst a2.
      eexists. split; [exact G4|]. split; auto.
    - destruct (F4 k Hf) as [G _]. exists a0. split; [unfold the_array in *; congruence|]. split; auto. }
  assert (Harr2 : forall k a, the_array (r_coll r0) k a -> exists a0, the_array c0 k a0).
  { intros k a Hk. destruct (in_dec string_dec k (c_free c0)) as [Hf|Hf].
    - destruct (F3 k Hf) as (a2 & src & d & G1 & _). eauto.
    - destruct (F4 k Hf) as [G _]. unfold the_array in *. rewrite G in Hk. eauto. }
  destruct (combos_names F1 H4) as [C1 C2]. fold (pair_names cs) in C1. rewrite Esrc, Emic in C1.
  rewrite C1 in H6. destruct (@pass_spec _ _ _ _ _ _ _ _ _ (no_sep HN) H6) as (Q1 & Q2 & Q3 & Q4). cbn [fst snd] in *.
  assert (Hquiet : forall nm u d, dget ds nm = Some d -> ~ In nm (c_free c0) \/ u < 1 - n0 \/ 0 < u -> tl2 nm u = zeros d).
  { intros nm u d Hd Hor. destruct (in_dec string_dec nm (c_free c0)) as [Hf|Hf].
    - destruct (F3 nm Hf) as (a & src & d' & _ & _ & _ & _ & G). rewrite G.
      destruct (Z.leb_spec (1 - n0) u), (Z.ltb_spec u (1 - n0 + n0)); simpl; try (apply silence_at; auto). destruct Hor as [|[|]]; [tauto|lia|lia].
    - rewrite (proj2 (F4 nm Hf)). apply silence_at; auto. }
  assert (Hcon : forall nm, In nm (c_src c0) \/ In nm (c_mic c0) ->
    ct = false \/ forall p, In p (list_prod (c_src c0) (c_mic c0)) -> nm <> contrib (fst p) (snd p)).
  { intros nm Hnm. destruct ct eqn:Qc; auto. right. intros [s' m'] Hin. apply in_prod_iff in Hin. simpl. rewrite <- Qc in *.
    apply (src_not_con HO HN s' m'); tauto. }
  assert (Hsrc3 : forall s u, In s (c_src c0) -> r_tl r0 s u = tl2 s u).
  { intros s u Hs. rewrite Q3 by auto.
    apply fold_none. intros [s' m'] Hin. apply in_prod_iff in Hin. simpl. intros Eq. subst. apply (@mic_not_src _ c0 m'); tauto. }
  assert (Hflt : forall s m, In s (c_src c0) -> In m (c_mic c0) ->
     lookup2 (c_paths c0) s m = Some (P 0 s m) /\
     lookup2 fs s m = Some (mkFir (P 0 s m) (map (r_tl r0 s) (zrange (1 - n0 - hist_len (P 0 s m)) (1 - n0))))).
  { intros s m Hs Hm. destruct (filters_init_ok HO H1 s m Hs Hm) as (p & A1 & A2).
    assert (Ep : P 0 s m = p). { rewrite HP. unfold path_of. rewrite A1. auto. } rewrite Ep. split; auto. rewrite A2. unfold fir_init. do 2 f_equal.
    destruct (proj1 (src_names s HO) Hs) as (a & Ha & _). destruct (proj1 (mic_names m HO) Hm) as (b & Hmb & _).
    destruct (HS A1 Hs Hm Ha Hmb) as [Ens _].
    assert (Hz : forall u, u < 1 - n0 -> r_tl r0 s u = zeros (p_ns p)).
    { intros u Hu. rewrite Hsrc3, Ens by auto. apply Hquiet; auto. apply (no_dim HN Ha). }
    unfold hist_len. destruct (Z.leb_spec 0 (p_len p - 1)).
    - rewrite Z.max_r by lia. apply zrep_map; [lia|]. intros u Hu. apply Hz. lia.
    - rewrite Z.max_l by lia. rewrite zrange_empty by lia. unfold zrep. replace (Z.to_nat (p_len p - 1)) with 0%nat by lia. auto. }
  assert (Hout : forall s m, In s (c_src c0) -> In m (c_mic c0) -> exists f, lookup2 fs s m = Some f /\
     fir_process f (map (tl2 s) (zrange (1 - n0) 1)) =
     (mkFir (P 0 s m) (map (r_tl r0 s) (zrange (1 - hist_len (P 0 s m)) 1)), map (response (P 0 s m) (r_tl r0 s)) (zrange (1 - n0) 1))).
  { intros s m Hs Hm. destruct (Hflt s m Hs Hm) as (_ & B). eexists. split; [exact B|].
    assert (E2 : map (tl2 s) (zrange (1 - n0) 1) = map (r_tl r0 s) (zrange (1 - n0) 1)).
    { apply map_ext. intros u. symmetry. apply Hsrc3; auto. }
    rewrite E2, fir_process_conv' by lia. auto. }
  assert (Hys : forall s m, In s (c_src c0) -> In m (c_mic c0) ->
     outputs (1 - n0) 1 (fs, tl2) (s, m) = map (response (P 0 s m) (r_tl r0 s)) (zrange (1 - n0) 1)).
  { intros s m Hs Hm. destruct (Hout s m Hs Hm) as (f & B1 & B2). unfold outputs. cbn [fst snd]. rewrite B1, B2. auto. }
  assert (Hnm : forall s m b, In s (c_src c0) -> In m (c_mic c0) -> the_array c0 m b -> p_nm (P 0 s m) = a_num b).
  { intros s m b Hs Hm Hmb. destruct (Hflt s m Hs Hm) as (A1 & _). destruct (proj1 (src_names s HO) Hs) as (a & Ha & _).
    eapply HS; eauto. }
  assert (Hmf : forall m, In m (c_mic c0) -> ~ In m (c_free c0)).
  { intros m Hm Hf. apply (@free_is_src _ c0 m HO) in Hf. apply (@mic_not_src _ c0 m HO Hm Hf). }
  assert (Hpick : forall u, 0 < u -> first_pick u = None).
  { intros u Hu. unfold first_pick, pick0, pick_from. destruct early as [n|].
    - destruct (Z.ltb_spec u 1); [lia|]. rewrite Bool.andb_false_r. auto.
    - destruct (Z.leb_spec u 0); [lia|auto]. }
  assert (Hw0 : forall nm u, written ds (r_tl r0) procs 0 nm u = silent ds nm).
  { intros nm u. destruct procs as [|p [|q l]]; cbn [written]; auto. inversion Hb; subst.
    destruct (Z.leb_spec 1 (u / pr_bs p)); simpl; auto. destruct (Z.leb_spec (u / pr_bs p * pr_bs p) 0); auto. nia. }
  split.
  - split; auto.
    + intros s m Hs Hm. destruct (Hflt s m Hs Hm) as (A1 & _). exists (P 0 s m). split; auto. split; [rewrite Epaths; auto|].
      split; [apply same_shape_spec; auto|]. split; auto.
      destruct (Hout s m Hs Hm) as (f & B1 & B2). destruct (Q1 s m) as (f' & B3 & B4); [apply in_prod; auto|].
      rewrite B1 in B3. inversion B3; subst f'. rewrite B4, B2. auto.
    + intros k a0 Hk Ha0. destruct (F3 k Hk) as (a1 & src & d & G1 & G2 & G3 & G4 & G5).
      assert (a1 = a0) by (unfold the_array in *; congruence). subst a1. exists src. eexists. split; [auto|]. split; [exact G4|]. split; [auto|].
      intros t Ht. rewrite Hsrc3 by (apply free_is_src; auto). rewrite G5. unfold free_signal.
      assert (Ed : d = a_num a0). { pose proof (no_dim HN Ha0). congruence. } subst d.
      destruct (Z.leb_spec (1 - n0) t), (Z.ltb_spec t (1 - n0 + n0)), (Z.ltb_spec t (1 - n0)), (Z.leb_spec t 0); simpl; try lia; auto.
      apply silence_at; auto.
    + rewrite Hps. destruct procs as [|p l]; auto. rewrite <- map_id at 1. apply map_ext_in. intros q Hq.
      pose proof (proj1 (Forall_forall _ _) Hb q Hq) as Hbq. simpl in Hbq. rewrite Z.div_0_l by lia. destruct q; auto.
    + intros nm u Hnf Hnc Hor. rewrite Hw0.
      assert (E2 : r_tl r0 nm u = tl2 nm u).
      { rewrite Q3. 2:{ destruct Hnc as [|Hnc]; auto. right. intros [s' m'] Hin. apply in_prod_iff in Hin. apply Hnc; tauto. }
        destruct Hor as [Hm|Hu].
        - apply fold_none. intros [s' m'] Hin Eq. apply in_prod_iff in Hin. simpl in Eq. subst. tauto.
        - apply fold_add_none. apply Hpick; auto. }
      rewrite E2, (proj2 (F4 nm Hnf)). reflexivity.
    + intros; lia.
    + intros; lia.
  - split.
    + intros m b t Hm Hmb Ht. rewrite Q3 by auto.
      pose proof (no_dim HN Hmb) as Hdm. rewrite (Hquiet m t _ Hdm) by auto.
      destruct (start_mic early t) as [u|] eqn:Qu.
      * set (h := fun s => response (path_of c0 s m) (r_tl r0 s) u).
        assert (Hadd : forall s v, In s (c_src c0) -> add_at first_pick (outputs (1 - n0) 1 (fs, tl2) (s, m)) t v = fadd_tot v (h s)).
        { intros s v Hs. rewrite Hys by auto. unfold add_at, h. rewrite <- HP.
          assert (K : first_pick t = Some (u - (1 - n0)) /\ 1 - n0 <= u < 1).
          { unfold first_pick, start_mic, pick0, pick_from in *. destruct early as [n|]; cbn [first_request] in *.
            - destruct (Z.leb_spec (1 - n) t), (Z.leb_spec t 0), (Z.ltb_spec t 1); simpl in *; try discriminate; try lia. inversion Qu; subst. split; auto; lia.
            - destruct (Z.leb_spec t 0); inversion Qu; subst. split; auto; lia. }
          destruct K as [-> K]. rewrite zget_map, zget_zrange.
          destruct (Z.leb_spec 0 (u - (1 - n0))), (Z.ltb_spec (u - (1 - n0)) (1 - (1 - n0))); simpl; try lia.
          replace (1 - n0 + (u - (1 - n0))) with u by lia. auto. }
        rewrite fold_left_ext_in with (g := fun v p => if String.eqb m (snd p) then (fun s v => fadd_tot v (h s)) (fst p) v else v).
        -- etransitivity; [apply (@fold_prod _ (fun s v => fadd_tot v (h s)) m (c_src c0) (c_mic c0)); [apply NoDup_mic; auto|auto]|].
           rewrite (fold_left_map fadd_tot h). apply fold_fadd_mix; [eapply Hnum; eauto|].
           apply Forall_map, Forall_forall. intros s Hs. unfold h. rewrite <- HP, zlen_response, (Hnm s m b) by auto.
           rewrite Z.max_r; auto. eapply Hnum; eauto.
        -- intros v [s' m'] Hin. apply in_prod_iff in Hin as [Hs' Hm']. cbn [fst snd]. destruct (String.eqb_spec m m'); auto. subst m'.
           apply Hadd; auto.
      * apply fold_add_none. unfold first_pick, start_mic, pick0, pick_from in *. destruct early as [n|]; cbn [first_request] in *.
        -- destruct (Z.leb_spec (1 - n) t), (Z.leb_spec t 0), (Z.ltb_spec t 1); simpl in *; try discriminate; try lia; auto.
        -- destruct (Z.leb_spec t 0); [discriminate|lia].
    + intros Hc s m b t Hs Hm Hmb Ht. pose proof (Q4 Hc (s, m)) as K. cbn [fst snd] in K. rewrite K; [|apply in_prod; auto|].
      * rewrite Hys, zget_map, zget_zrange by auto. rewrite <- HP.
        destruct (Z.leb_spec (1 - n0) t), (Z.leb_spec 0 (t - (1 - n0))), (Z.ltb_spec (t - (1 - n0)) (1 - (1 - n0))); simpl; try lia.
        -- f_equal. lia.
        -- apply Hquiet. { apply (no_con HN Hc s Hs Hm Hmb). } auto.
      * rewrite Hys by auto. apply Forall_map, Forall_forall. intros u _. rewrite (no_con HN Hc s Hs Hm Hmb), zlen_response, (Hnm s m b) by auto.
        rewrite Z.max_r; auto. eapply Hnum; eauto.
Qed.
End Start.

(* ------------------------------------------------------------------ moving arrays *)
Section Moving.
Context {E : AEnv} {S : SEnv}.
Notation arr := (arr Pos Src).

Definition alike (a b : arr) : Prop := a_num a = a_num b /\ a_dirs a = a_dirs b /\ a_pos a = a_pos b.
Lemma raw_path_cong i g s m s' m' t g' p : alike s s' -> alike m m' -> raw_path i g s m t g' p -> raw_path i g s' m' t g' p.
Proof.
  intros (A1 & A2 & A3) (B1 & B2 & B3) H. destruct H.
  - apply raw_none; auto; congruence.
  - apply raw_direct; auto; congruence.
  - apply raw_random with (draw := draw); auto; congruence.
  - apply raw_ism; auto; first [congruence|rewrite <- B2; auto].
Qed.
Lemma made_path_cong i g s m s' m' t g' p : alike s s' -> alike m m' -> made_path i g s m t g' p -> made_path i g s' m' t g' p.
Proof. intros A B (q & Hq & Ep). exists q. split; auto. eapply raw_path_cong; eauto. Qed.

Record Moves (c0 : coll E) (T : Z) (c : coll E) : Prop := {
  mv_ok : coll_ok c;
  mv_types : c_ptypes c = c_ptypes c0;
  mv_info : c_info c = c_info c0;
  mv_arr : forall k a0, the_array c0 k a0 -> exists a, the_array c k a /\ a_traj a = a_traj a0 /\ a_name a = a_name a0 /\
     a_kind a = a_kind a0 /\
     (T <= 0 -> alike a a0) /\
     (forall i, c_info c0 = Some i -> 1 <= T -> alike a (placed_at a0 (last_update (array_update_freq i) T)));
  mv_path : forall i s m a0 b0, c_info c0 = Some i -> 1 <= T -> In s (c_src c) -> In m (c_mic c) ->
     the_array c0 s a0 -> the_array c0 m b0 -> dynamic a0 || dynamic b0 = true ->
     exists ty g1 g2 p, lookup2 (c_ptypes c0) s m = Some ty /\ lookup2 (c_paths c) s m = Some p /\
       made_path i g1 (placed_at a0 (last_update (array_update_freq i) T)) (placed_at b0 (last_update (array_update_freq i) T)) ty g2 p
}.
Lemma alike_refl a : alike a a. Proof. repeat split. Qed.
Lemma alike_trans a b c : alike a b -> alike b c -> alike a c.
Proof. intros (?&?&?) (?&?&?); repeat split; congruence. Qed.
Lemma alike_sym a b : alike a b -> alike b a.
Proof. intros (?&?&?); repeat split; congruence. Qed.
Lemma alike_update a a0 g : a_traj a = a_traj a0 -> alike a a0 \/ (exists t, alike a (placed_at a0 t)) -> alike (arr_update a g) (placed_at a0 g).
Proof.
  intros Ht H. unfold arr_update, placed_at. rewrite Ht.
  assert (K : a_num a = a_num a0 /\ a_dirs a = a_dirs a0 /\ (a_traj a0 = None -> a_pos a = a_pos a0)).
  { destruct H as [(?&?&?)|[t (?&?&?)]]; auto. unfold placed_at in *. destruct (a_traj a0); simpl in *; auto; repeat split; auto; discriminate. }
  destruct K as (K1 & K2 & K3). destruct (a_traj a0); repeat split; simpl; auto.
Qed.
Lemma moves_update c0 T c c' : 0 <= T -> Moves c0 T c -> update c T = Ok c' -> Moves c0 (T + 1) c'.
Proof.
  intros HT M H. destruct (update_info _ _ H) as [i Hi]. pose proof (mv_info M) as Ei.
  destruct (@update_ok _ c T c' i (mv_ok M) Hi H) as (Hf & U1 & U2 & U3 & U4 & U5 & U6 & U7 & U8).
  set (f := array_update_freq i) in *.
  assert (Hmod : T mod f = 0 <-> T mod Z.abs f = 0).
  { split; intros Q.
    - apply Z.mod_divide in Q; auto. apply Z.mod_divide; [lia|]. apply Z.divide_abs_l. auto.
    - apply Z.mod_divide in Q; [|lia]. apply Z.mod_divide; auto. apply Z.divide_abs_l. auto. }
  assert (Hi0 : forall i0, c_info c0 = Some i0 -> i0 = i). { intros i0 Q. congruence. }
  destruct (Z.eq_dec (T mod f) 0) as [Hz|Hz].
  - destruct (U2 Hz) as (l & P & L1 & L2 & L3 & L4 & L5).
    assert (Elast : last_update f (T + 1) = T).
    { unfold last_update. replace (T + 1 - 1) with T by lia. apply Hmod in Hz. pose proof (Z.div_mod T (Z.abs f)). lia. }
    assert (Mv : forall k a, the_array c k a -> the_array c' k (arr_update a T)).
    { intros k a Hk. unfold the_array in *. rewrite L5. unfold moved_arrays. rewrite (dget_map (fun a => arr_update a T)), Hk. auto. }
    assert (Ha : forall k a0, the_array c0 k a0 -> exists a, the_array c' k a /\ a_traj a = a_traj a0 /\ a_name a = a_name a0 /\ a_kind a = a_kind a0 /\ alike a (placed_at a0 T)).
    { intros k a0 Hk. destruct (mv_arr M Hk) as (a & A1 & A2 & A3 & A3' & A4 & A5). exists (arr_update a T). split; auto.
      rewrite arr_update_traj, arr_update_name, arr_update_kind. repeat (split; [assumption|]). apply alike_update; auto.
      destruct (Z.le_gt_cases T 0); auto. right. eexists. eapply A5; [rewrite <- Ei; eauto|lia]. }
    pose proof (mv_types M) as Et. split; [exact U8|congruence|congruence| |].
    + intros k a0 Hk. destruct (Ha k a0 Hk) as (a & A1 & A2 & A3 & A3' & A4). exists a. repeat (split; [assumption|]). split; [lia|].
      intros i0 Q _. rewrite (Hi0 i0 Q). fold f. rewrite Elast. auto.
    + intros i0 s m a0 b0 Q _ Hs Hm Ha0 Hb0 Hd. rewrite (Hi0 i0 Q). fold f. rewrite Elast.
      destruct (Ha s a0 Ha0) as (a & A1 & A2 & A3 & A3' & A4). destruct (Ha m b0 Hb0) as (b & B1 & B2 & B3 & B3' & B4).
      destruct (@regenerate_values _ _ _ _ _ _ _ _ L3 L1) as [R _].
      assert (Es : a_name a = s) by (apply (ok_key U8 _ A1)). assert (Em : a_name b = m) by (apply (ok_key U8 _ B1)).
      destruct (R a b) as (ty & g1 & g2 & p & R1 & R2 & R3).
      { apply L2. rewrite Es, Em. split; auto. split; auto.
        apply (src_names _ U8) in Hs as (a1 & Ha1 & Hs). apply (mic_names _ U8) in Hm as (b1 & Hb1 & Hm).
        assert (a1 = a) by (unfold the_array in *; congruence). assert (b1 = b) by (unfold the_array in *; congruence). subst.
        repeat split; auto. unfold dynamic in *. rewrite A2, B2. auto. }
      rewrite Es, Em in *. exists ty, g1, g2, p. rewrite <- (mv_types M). split; auto. split; [rewrite L4; auto|].
      apply create_path_made in R2. eapply made_path_cong; [| |exact R2]; auto.
  - rewrite (U1 Hz) in *.
    assert (HT1 : 1 <= T). { destruct (Z.eq_dec T 0); [|lia]. subst T. exfalso. apply Hz. apply Z.mod_0_l. auto. }
    assert (Elast : last_update f (T + 1) = last_update f T).
    { unfold last_update. replace (T + 1 - 1) with T by lia. assert (Hz' : T mod Z.abs f <> 0) by tauto.
      assert (0 < Z.abs f) by lia. f_equal. pose proof (Z.div_mod T (Z.abs f)). pose proof (Z.mod_pos_bound T (Z.abs f)).
      apply Z.div_unique with (r := T mod Z.abs f - 1); lia. }
    destruct M as [M1 M2 M3 M4 M5]. split; auto.
    + intros k a0 Hk. destruct (M4 k a0 Hk) as (a & A1 & A2 & A3 & A3' & A4 & A5). exists a. repeat (split; [assumption|]). split; [lia|].
      intros i0 Q _. rewrite (Hi0 i0 Q). fold f. rewrite Elast. rewrite <- (Hi0 i0 Q) in *. unfold f. rewrite <- (Hi0 i0 Q). apply A5; auto.
    + intros i0 s m a0 b0 Q _ Hs Hm Ha0 Hb0 Hd. rewrite (Hi0 i0 Q). fold f. rewrite Elast. unfold f. rewrite <- (Hi0 i0 Q).
      apply M5; auto.
Qed.
Lemma moves_free c0 T ds t n c tl c2 tl2 : 0 <= n -> Moves c0 T c -> foldM (ref_free ds t n) (c, tl) (c_free c) = Ok (c2, tl2) -> Moves c0 T c2.
Proof.
  intros Hn M H. destruct M as [M1 M2 M3 M4 M5].
  destruct (@free_fold _ ds t n Hn _ _ _ _ _ (@NoDup_free _ _ M1) M1 H) as (F1 & F2 & F3 & F4).
  split; auto.
  - rewrite F2. auto.
  - rewrite F2. auto.
  - intros k a0 Hk. destruct (M4 k a0 Hk) as (a & A1 & A2 & A3 & A3' & A4 & A5). destruct (in_dec string_dec k (c_free c)) as [Hf|Hf].
    + destruct (F3 k Hf) as (a2 & src & d & G1 & G2 & G3 & G4 & G5). assert (a2 = a) by (unfold the_array in *; congruence). subst a2.
      eexists. split; [exact G4|]. exact (conj A2 (conj A3 (conj A3' (conj A4 A5)))).
    + destruct (F4 k Hf) as [G _]. exists a. split; [unfold the_array in *; congruence|]. auto.
  - rewrite F2. cbn [c_paths c_src c_mic set_arrays]. auto.
Qed.
End Moving.

Section Whole.
Context {E : AEnv} {S : SEnv}.
Notation arr := (arr Pos Src).

Lemma steps_prefix ct ds (r0 : ref) n : forall m r, (n <= m)%nat -> ref_steps ct ds m r0 = Ok r -> exists r', ref_steps ct ds n r0 = Ok r'.
Proof.
  induction m as [|m IH]; intros r Hn H.
  - replace n with 0%nat by lia. eexists. reflexivity.
  - destruct (Nat.eq_dec n (Datatypes.S m)); [subst; eauto|]. cbn [ref_steps] in H. apply bind_ok in H as (r1 & H1 & _). eapply IH; eauto. lia.
Qed.
Theorem ref_law ct early c (procs : list (@proc E S)) ds n r :
  coll_ok c -> shaped c -> (forall k a, the_array c k a -> 0 <= a_num a) ->
  zlen procs <= 1 -> blocks_ok procs -> Forall (fun p => forall s w, NoDup (dkeys (snd (pr_step p s w)))) procs ->
  1 <= first_request early -> ref_dims ct c procs = Ok ds -> ref_run ct early c procs n = Ok r ->
  exists P,
    (forall t s m, t <= 0 -> P t s m = path_of c s m) /\
    (forall i t s m a0 b0, c_info c = Some i -> 1 <= t <= Z.of_nat n -> In s (c_src c) -> In m (c_mic c) ->
       the_array c s a0 -> the_array c m b0 -> dynamic a0 || dynamic b0 = true ->
       exists ty g1 g2, lookup2 (c_ptypes c) s m = Some ty /\
         made_path i g1 (placed_at a0 (last_update (array_update_freq i) t)) (placed_at b0 (last_update (array_update_freq i) t)) ty g2 (P t s m)) /\
    (forall t s m, 1 <= t <= Z.of_nat n -> In s (c_src c) -> In m (c_mic c) -> static_pair c s m -> P t s m = path_of c s m) /\
    Law ct ds c procs (first_request early) P (Z.of_nat n) r /\ start_law ct early c (r_tl r).
Proof.
  intros HO HS Hnum Hone Hb Hdict Hn0 Hds H. pose proof (ref_dims_names _ _ HO Hds) as HN.
  unfold ref_run in H. rewrite Hds in H. cbn [bind] in H. apply bind_ok in H as (r0 & H0 & H).
  set (P := fun t => path_of (match ref_steps ct ds (Z.to_nat t) r0 with Ok r => r_coll r | Err _ => c end)).
  edestruct prepare_parts as (fs & tl2 & cs & Hfs & H3 & _); [exact Hn0|exact H0|].
  assert (Hn : 0 <= first_request early) by lia.
  destruct (@free_fold _ ds (1 - first_request early) (first_request early) Hn _ _ _ _ _ (@NoDup_free _ _ HO) HO H3) as (F1 & F2 & F3 & F4).
  assert (HP0 : forall t s m, t <= 0 -> P t s m = path_of c s m).
  { intros t s m Ht. unfold P. replace (Z.to_nat t) with 0%nat by lia. cbn [ref_steps]. unfold path_of. rewrite F2. auto. }
  assert (M0 : Moves c 0 c).
  { split; auto; [|lia]. intros k a0 Hk. exists a0. do 4 (split; [solve [auto]|]). split; [intros; apply alike_refl|lia]. }
  pose proof (@moves_free _ c 0 ds _ _ c _ _ _ Hn M0 H3) as M1.
  assert (K : forall k r', (k <= n)%nat -> ref_steps ct ds k r0 = Ok r' ->
     Law ct ds c procs (first_request early) P (Z.of_nat k) r' /\ Moves c (Z.of_nat k) (r_coll r') /\
     (forall nm u, u <= 0 -> r_tl r' nm u = r_tl r0 nm u)).
  { induction k as [|k IH]; intros r' Hk Hs.
    - cbn [ref_steps] in Hs. inversion Hs; subst r'. split; [|split; auto]. edestruct law_start as [LL _]; [..|exact LL]; eauto. intros; apply HP0; lia.
    - pose proof Hs as Hs'. cbn [ref_steps] in Hs. apply bind_ok in Hs as (r1 & Hs1 & Hs). destruct (IH r1) as (L & M & Pa); auto; [lia|].
      replace (Z.of_nat (Datatypes.S k)) with (Z.of_nat k + 1) by lia.
      assert (L2 : Law ct ds c procs (first_request early) P (Z.of_nat k + 1) r').
      { eapply law_step; eauto; [lia|]. intros s m. unfold P.
        replace (Z.to_nat (Z.of_nat k + 1)) with (Datatypes.S k) by lia. rewrite Hs'. auto. }
      split; auto. split.
      + destruct (ref_step_parts _ _ _ _ Hs) as (c1 & tl1 & tl3 & fs1 & cs1 & G1 & G2 & G3 & _).
        assert (Mu : Moves c (Z.of_nat k + 1) c1) by (eapply moves_update; eauto; lia).
        refine (@moves_free _ c _ ds _ 1 c1 _ _ _ _ Mu G3). lia.
      + intros nm u Hu. rewrite <- Pa by auto. eapply ref_step_past; eauto; [|lia].
        rewrite (l_procs L). apply Forall_map. cbn [pr_bs]. eapply Forall_impl; [|exact Hb]. simpl. intros. lia. }
  destruct (K n r (le_n n) H) as (L & M & Pa). exists P. split; auto. split; [|split; [|split; auto]].
  - intros i t s m a0 b0 Hi Ht Hs Hm Ha0 Hb0 Hd.
    destruct (@steps_prefix ct ds r0 (Z.to_nat t) n r) as (r1 & Hr1); auto; [lia|].
    destruct (K (Z.to_nat t) r1) as (L1 & Mt & _); auto; [lia|]. rewrite Z2Nat.id in * by lia.
    destruct (mv_path Mt (i:=i) (s:=s) (m:=m) (a0:=a0) (b0:=b0)) as (ty & g1 & g2 & p & B1 & B2 & B3); auto; try lia.
    { rewrite (l_src L1); auto. } { rewrite (l_mic L1); auto. }
    exists ty, g1, g2. split; auto. assert (P t s m = p) as ->; auto. unfold P. rewrite Hr1. unfold path_of. rewrite B2. auto.
  - intros t s m Ht Hs Hm Hst.
    destruct (@steps_prefix ct ds r0 (Z.to_nat t) n r) as (r1 & Hr1); auto; [lia|].
    destruct (K (Z.to_nat t) r1) as (L1 & _ & _); auto; [lia|]. rewrite Z2Nat.id in * by lia.
    destruct (l_path L1 s m Hs Hm) as (p0 & B1 & _ & _ & B4 & _). rewrite (B4 Hst). unfold path_of. rewrite B1. auto.
  - destruct (@law_start _ _ ct ds c procs early HO HN HS Hb Hone Hnum Hn0 P r0) as [_ [S1 S2]]; [intros; apply HP0; lia|auto|].
    split.
    + intros m b t Hm Hmb Ht. rewrite Pa by auto. rewrite (S1 m b t Hm Hmb Ht).
      destruct (start_mic early t) as [u|] eqn:Q; auto. f_equal. apply map_ext. intros s. apply response_ext. intros v Hv. symmetry. apply Pa.
      unfold start_mic in Q. destruct early; [destruct (Z.leb_spec t 0); [|rewrite Bool.andb_false_r in Q; discriminate]; destruct (_ <=? t); inversion Q; lia|].
      destruct (t <=? 0); inversion Q; lia.
    + intros Hc s m b t Hs Hm Hmb Ht. rewrite Pa by auto. rewrite (S2 Hc s m b t Hs Hm Hmb Ht).
      destruct (_ <=? t); auto. apply response_ext. intros v Hv. symmetry. apply Pa. lia.
Qed.
End Whole.
