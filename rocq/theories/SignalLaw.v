(** One reference step, piece by piece. *)
Require Import Verif.PyBase Verif.PyLemmas Verif.ConfigModel Verif.ArrayModel Verif.ArraySpec Verif.ArrayProofs Verif.ArrayPaths
  Verif.LoggerModel Verif.SimModel Verif.SimSpec Verif.SimRefine Verif.SimRun Verif.SimDiag Verif.SignalSpec Verif.SignalPass Verif.SignalRun.
Set Implicit Arguments.
Arguments Z.add : simpl never.
Arguments Z.sub : simpl never.
Arguments Z.mul : simpl never.
Ltac Zify.zify_post_hook ::= Z.div_mod_to_equations.

Section Pieces.
Context {E : AEnv} {S : SEnv}.
Notation arr := (arr Pos Src).

Definition with_source (a : arr) (s : Src) : arr :=
  mkArr (a_name a) (a_kind a) (a_num a) (a_pos a) (a_traj a) (a_dirs a) (Some s) (a_time_all a) (a_pos_all a).

Lemma filter_names_dset {A} (f : A -> bool) (d : dict A) k a a' : dget d k = Some a -> f a' = f a ->
  map fst (filter (fun kv => f (snd kv)) (dset d k a')) = map fst (filter (fun kv => f (snd kv)) d).
Proof.
  intros H Hf. induction d as [|[k1 x] d IH]; simpl in *; [discriminate|].
  destruct (String.eqb_spec k k1); simpl.
  - inversion H; subst. rewrite Hf. destruct (f a); auto.
  - destruct (f x); simpl; rewrite IH; auto.
Qed.
Lemma dkeys_dset_known {A} (d : dict A) k a a' : dget d k = Some a -> dkeys (dset d k a') = dkeys d.
Proof.
  intros H. unfold dkeys. induction d as [|[k1 x] d IH]; simpl in *; [discriminate|].
  destruct (String.eqb_spec k k1); simpl; [subst; auto|]. rewrite IH; auto.
Qed.
Lemma coll_ok_source c k a s : coll_ok c -> dget (c_arrays c) k = Some a ->
  coll_ok (set_arrays c (dset (c_arrays c) k (with_source a s))).
Proof.
  intros O Hk. destruct O as [O1 O2 O3 O4 O5 O6 O7]. split; cbn [c_arrays c_mic c_src c_free c_paths c_ptypes set_arrays].
  - rewrite (dkeys_dset_known _ _ _ Hk). auto.
  - intros k' a' H. rewrite dget_dset in H. destruct (String.eqb_spec k' k); auto. subst. inversion H; subst. simpl. auto.
  - rewrite (filter_names_dset _ _ _ _ Hk); auto.
  - rewrite (filter_names_dset _ _ _ _ Hk); auto.
  - rewrite (filter_names_dset _ _ _ _ Hk); auto.
  - auto.
  - auto.
Qed.

Lemma free_fold ds t n : 0 <= n -> forall names c tl c2 tl2, NoDup names -> coll_ok c ->
  foldM (ref_free ds t n) (c, tl) names = Ok (c2, tl2) ->
  coll_ok c2 /\ c2 = set_arrays c (c_arrays c2) /\
  (forall k, In k names -> exists a src d, the_array c k a /\ a_source a = Some src /\ dget ds k = Some d /\
     the_array c2 k (with_source a (fst (src_get src n))) /\
     forall u, tl2 k u = if (t <=? u) && (u <? t + n) then shown d (snd (src_get src n)) (u - t) else tl k u) /\
  (forall k, ~ In k names -> dget (c_arrays c2) k = dget (c_arrays c) k /\ forall u, tl2 k u = tl k u).
Proof.
  intros Hn. induction names as [|k names IH]; intros c tl c2 tl2 HN O H.
  - inversion H; subst. split; [auto|]. split; [destruct c2; auto|]. split; [simpl; tauto|auto].
  - cbn [foldM] in H. apply bind_ok in H as ([c1 tl1] & H1 & H). inversion HN as [|? ? HN1 HN2]; subst.
    unfold ref_free in H1. apply bind_ok in H1 as (a & Ha & H1). destruct (a_source a) as [src|] eqn:Qs; [|discriminate].
    destruct (src_get src n) as [src' xs] eqn:Qg. apply bind_ok in H1 as (tl1' & Hw & H1). inversion H1; subst tl1' c1; clear H1.
    unfold dgetE in Ha. destruct (dget (c_arrays c) k) as [a'|] eqn:Hk; inversion Ha; subst a'.
    fold (with_source a src') in H. set (c1 := set_arrays c (dset (c_arrays c) k (with_source a src'))) in *.
    assert (O1 : coll_ok c1) by (apply coll_ok_source; auto).
    destruct (IH c1 tl1 c2 tl2 HN2 O1 H) as (J1 & J2 & J3 & J4).
    destruct (tl_write_shown _ _ _ _ _ Hn Hw) as (d & Hd & W).
    split; [auto|]. split; [rewrite J2 at 1; destruct c2; reflexivity|]. split.
    + intros k' [Hk'|Hk'].
      * subst k'. exists a, src, d. rewrite Qg. cbn [fst snd]. destruct (J4 k HN1) as [G1 G2].
        split; [exact Hk|]. split; auto. split; auto. split.
        -- unfold the_array. rewrite G1. unfold c1. cbn [c_arrays set_arrays]. apply dget_dset_same.
        -- intros u. rewrite G2, W, String.eqb_refl. cbn [andb]. auto.
      * destruct (J3 k' Hk') as (a1 & s1 & d1 & G1 & G2 & G3 & G4 & G5). assert (Hne : k' <> k) by congruence.
        exists a1, s1, d1. unfold the_array in *. unfold c1 in G1. cbn [c_arrays set_arrays] in G1. rewrite dget_dset_other in G1 by auto.
        repeat split; auto. intros u. rewrite G5, W. destruct (String.eqb_spec k' k); [congruence|]. auto.
    + intros k' Hk'. simpl in Hk'. destruct (J4 k') as [G1 G2]; [tauto|]. rewrite G1. unfold c1. cbn [c_arrays set_arrays].
      split; [apply dget_dset_other; intuition congruence|]. intros u. rewrite G2, W. destruct (String.eqb_spec k' k); [intuition congruence|]. auto.
Qed.

Lemma same_shape_spec (p q : path V) : same_shape p q = true <-> p_ns p = p_ns q /\ p_nm p = p_nm q /\ p_len p = p_len q.
Proof. unfold same_shape. rewrite !Bool.andb_true_iff, !Z.eqb_eq. tauto. Qed.

Lemma refresh_fold c : forall l fs fs1, NoDup (pair_names l) -> foldM (refresh_pair c) fs l = Ok fs1 ->
  (forall s m, In (s, m) l ->
     if dynamic s || dynamic m then
       exists f p, lookup2 fs (a_name s) (a_name m) = Some f /\ lookup2 (c_paths c) (a_name s) (a_name m) = Some p /\
         same_shape (f_path f) p = true /\ lookup2 fs1 (a_name s) (a_name m) = Some (mkFir p (f_buf f))
     else lookup2 fs1 (a_name s) (a_name m) = lookup2 fs (a_name s) (a_name m)) /\
  (forall s m, ~ In (s, m) (pair_names l) -> lookup2 fs1 s m = lookup2 fs s m).
Proof.
  induction l as [|[s m] l IH]; intros fs fs1 HN H.
  - inversion H; subst. split; auto. simpl. tauto.
  - cbn [foldM] in H. apply bind_ok in H as (fs0 & H1 & H). inversion HN as [|? ? HN1 HN2]; subst.
    destruct (IH fs0 fs1 HN2 H) as [I1 I2]. cbn [fst snd] in HN1.
    assert (K : (forall s' m', (s', m') <> (a_name s, a_name m) -> lookup2 fs0 s' m' = lookup2 fs s' m') /\
       if dynamic s || dynamic m then
       exists f p, lookup2 fs (a_name s) (a_name m) = Some f /\ lookup2 (c_paths c) (a_name s) (a_name m) = Some p /\
         same_shape (f_path f) p = true /\ lookup2 fs0 (a_name s) (a_name m) = Some (mkFir p (f_buf f))
       else lookup2 fs0 (a_name s) (a_name m) = lookup2 fs (a_name s) (a_name m)).
    { unfold refresh_pair in H1. cbn [fst snd] in H1. destruct (dynamic s || dynamic m).
      - apply bind_ok in H1 as (f & Hf & H1). apply bind_ok in H1 as (p & Hp & H1). apply bind_ok in H1 as (f' & Hu & H1).
        apply dget2E_lookup2 in Hf, Hp. apply dset2_ok in H1 as (_ & H1 & _).
        unfold fir_update in Hu. destruct (same_shape (f_path f) p) eqn:Q; inversion Hu; subst. split.
        + intros s' m' Hne. rewrite H1. destruct (String.eqb_spec s' (a_name s)), (String.eqb_spec m' (a_name m)); simpl; auto. subst. congruence.
        + exists f, p. rewrite H1, !String.eqb_refl. auto.
      - inversion H1; subst. auto. }
    destruct K as [K1 K2]. split.
    + intros s' m' [Hin|Hin].
      * inversion Hin; subst. rewrite I2 by auto. exact K2.
      * specialize (I1 s' m' Hin). assert (Hne : (a_name s', a_name m') <> (a_name s, a_name m)).
        { intros Eq. apply HN1. rewrite <- Eq. apply in_map_iff. exists (s', m'). auto. }
        rewrite K1 in I1 by auto. exact I1.
    + intros s' m' Hin. simpl in Hin. rewrite I2 by tauto. apply K1. intuition congruence.
Qed.

Lemma filters_fold c : forall l fs fs1, NoDup (pair_names l) ->
  foldM (fun fs (sm : arr * arr) =>
    let sn := a_name (fst sm) in let mn := a_name (snd sm) in
    p <- dget2E (c_paths c) sn mn ;;
    let fs := if dmem fs sn then fs else dset fs sn [] in
    dset2 fs sn mn (fir_init p)) fs l = Ok fs1 ->
  (forall s m, In (s, m) (pair_names l) -> exists p, lookup2 (c_paths c) s m = Some p /\ lookup2 fs1 s m = Some (fir_init p)) /\
  (forall s m, ~ In (s, m) (pair_names l) -> lookup2 fs1 s m = lookup2 fs s m).
Proof.
  induction l as [|[s m] l IH]; intros fs fs1 HN H.
  - inversion H; subst. split; auto. simpl. tauto.
  - cbn [foldM] in H. apply bind_ok in H as (fs0 & H1 & H). inversion HN as [|? ? HN1 HN2]; subst.
    destruct (IH fs0 fs1 HN2 H) as [I1 I2]. cbn [fst snd] in HN1, H1.
    apply bind_ok in H1 as (p & Hp & H1). apply dget2E_lookup2 in Hp. apply dset2_ok in H1 as (_ & H1 & _).
    assert (K : forall s' m', lookup2 (if dmem fs (a_name s) then fs else dset fs (a_name s) []) s' m' = lookup2 fs s' m').
    { intros s' m'. destruct (dmem fs (a_name s)) eqn:Q; auto. unfold lookup2. rewrite dget_dset.
      destruct (String.eqb_spec s' (a_name s)); auto. subst.
      match goal with |- _ = match ?x with _ => _ end => destruct x as [y|] eqn:Q2; auto end.
      assert (dmem fs (a_name s) = true) by (unfold dmem; setoid_rewrite Q2; auto). congruence. }
    split.
    + intros s' m' [Hin|Hin].
      * inversion Hin; subst. exists p. split; auto. rewrite I2 by auto. rewrite H1, !String.eqb_refl. auto.
      * auto.
    + intros s' m' Hin. simpl in Hin. rewrite I2 by tauto. rewrite H1, K.
      destruct (String.eqb_spec s' (a_name s)), (String.eqb_spec m' (a_name m)); simpl; auto. subst. tauto.
Qed.
Lemma filters_init_ok c fs : coll_ok c -> filters_init c = Ok fs ->
  forall s m, In s (c_src c) -> In m (c_mic c) -> exists p, lookup2 (c_paths c) s m = Some p /\ lookup2 fs s m = Some (fir_init p).
Proof.
  intros O H s m Hs Hm. unfold filters_init in H. apply bind_ok in H as (cs & Hcs & H).
  destruct (combos_names O Hcs) as [P1 P2]. fold (pair_names cs) in P1.
  apply filters_fold in H as [H _].
  - apply H. rewrite P1. apply in_prod; auto.
  - rewrite P1. apply NoDup_list_prod; [apply NoDup_src|apply NoDup_mic]; auto.
Qed.

(** update leaves the paths of pairs without a moving endpoint alone *)
Lemma update_static c g c' : coll_ok c -> update c g = Ok c' ->
  coll_ok c' /\ c_mic c' = c_mic c /\ c_src c' = c_src c /\ c_free c' = c_free c /\ c_info c' = c_info c /\ c_ptypes c' = c_ptypes c /\
  (forall k a, the_array c k a -> exists a', the_array c' k a' /\ (a' = a \/ a' = arr_update a g)) /\
  (forall s m a b, the_array c s a -> the_array c m b -> a_traj a = None -> a_traj b = None ->
     lookup2 (c_paths c') s m = lookup2 (c_paths c) s m).
Proof.
  intros O H. destruct (update_info _ _ H) as [i Hi].
  destruct (@update_ok _ c g c' i O Hi H) as (_ & U1 & U2 & U3 & U4 & U5 & U6 & U7 & U8).
  repeat (split; [assumption|]).
  destruct (Z.eq_dec (g mod array_update_freq i) 0) as [Hz|Hz].
  - destruct (U2 Hz) as (l & P & L1 & L2 & L3 & L4 & L5).
    assert (M : forall k a, the_array c k a -> the_array c' k (arr_update a g)).
    { intros k a Hk. unfold the_array in *. rewrite L5. unfold moved_arrays. rewrite (dget_map (fun a => arr_update a g)), Hk. auto. }
    split.
    + intros k a Hk. exists (arr_update a g). auto.
    + intros s m a b Ha Hb Ta Tb. rewrite L4. destruct (@regenerate_values _ _ _ _ _ _ _ _ L3 L1) as [_ R]. apply R.
      intros Hin. apply in_map_iff in Hin as ([a' b'] & Eab & Hin). simpl in Eab. inversion Eab; subst.
      apply L2 in Hin as (T1 & T2 & _ & _ & D).
      pose proof (M _ _ Ha) as Ma. pose proof (M _ _ Hb) as Mb. unfold the_array in *.
      rewrite T1 in Ma. rewrite T2 in Mb. inversion Ma; inversion Mb; subst. unfold dynamic in D. rewrite !arr_update_traj, Ta, Tb in D. discriminate.
  - rewrite (U1 Hz). split; eauto.
Qed.
End Pieces.
