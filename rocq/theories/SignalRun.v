(** The reference run in closed form. *)
Require Import Verif.PyBase Verif.PyLemmas Verif.ConfigModel Verif.ArrayModel Verif.ArraySpec Verif.ArrayProofs Verif.ArrayPaths
  Verif.LoggerModel Verif.SimModel Verif.SimSpec Verif.SimRefine Verif.SimRun Verif.SimDiag Verif.SignalSpec Verif.SignalPass.
Set Implicit Arguments.
Arguments Z.add : simpl never.
Arguments Z.sub : simpl never.
Arguments Z.mul : simpl never.
Ltac Zify.zify_post_hook ::= Z.div_mod_to_equations.

Section Write.
Context {E : AEnv} {S : SEnv}.
Notation arr := (arr Pos Src).

(* ------------------------------------------------------------------ writing with broadcasting *)
Lemma fit_spec d f f' : fit d f = Ok f' -> f' = match f with [v] => zrep d v | _ => f end.
Proof.
  unfold fit. destruct (Z.eqb_spec (zlen f) d).
  - intros H; inversion H; subst. destruct f' as [|v [|w f']]; auto.
  - destruct f as [|v [|w f]]; intros H; inversion H; auto.
Qed.
Lemma mapM_fit_get d : forall xs ys, mapM (fit d) xs = Ok ys ->
  forall k, zget ys k = option_map (fun f => match f with [v] => zrep d v | _ => f end) (zget xs k).
Proof.
  induction xs as [|x xs IH]; intros ys H k; cbn [mapM] in H.
  - inversion H; subst. rewrite !zget_nil. auto.
  - apply bind_ok in H as (y & Hy & H). apply bind_ok in H as (ys' & H' & H). inversion H; subst.
    rewrite (zget_cons y), (zget_cons x). destruct (k =? 0); [simpl; rewrite (fit_spec _ _ Hy); auto|apply IH; auto].
Qed.
Lemma tl_write_shown ds tl nm t n xs tl' : 0 <= n -> tl_write ds tl nm t n xs = Ok tl' ->
  exists d, dget ds nm = Some d /\
  forall nm' u, tl' nm' u = if String.eqb nm' nm && ((t <=? u) && (u <? t + n)) then shown d xs (u - t) else tl nm' u.
Proof.
  intros Hn H. unfold tl_write in H. apply bind_ok in H as (d & Hd & H). unfold dgetE in Hd. destruct (dget ds nm) as [d'|] eqn:Q; inversion Hd; subst.
  exists d. split; auto. apply bind_ok in H as (ys & Hy & H). apply bind_ok in H as (zs & Hz & H). inversion H; subst; clear H.
  pose proof (mapM_fit_get _ _ Hy) as G. pose proof (mapM_len _ _ Hy) as L. pose proof (@expand_len _ _ _ _ Hz Hn) as L2.
  intros nm' u. destruct (String.eqb nm' nm); simpl; auto.
  destruct (Z.leb_spec t u), (Z.ltb_spec u (t + n)); simpl.
  2,3,4: first [rewrite zget_out by lia | rewrite zget_neg by lia]; auto.
  destruct (@zget_in_range _ zs (u - t)) as [z Hzz]; [lia|]. rewrite Hzz.
  unfold expand in Hz. destruct (Z.eqb_spec (zlen ys) n).
  - inversion Hz; subst zs. rewrite G in Hzz. unfold shown. destruct (zget xs (u - t)) as [x|] eqn:Qx; simpl in Hzz; inversion Hzz.
    destruct xs as [|x1 [|x2 xs]]; auto. rewrite zget_cons in Qx. destruct (Z.eqb_spec (u - t) 0); [injection Qx as ->; auto|]. rewrite zget_nil in Qx. discriminate.
  - destruct ys as [|y [|y2 ys]]; try discriminate. inversion Hz; subst zs. destruct xs as [|x [|x2 xs]].
    + rewrite zlen_nil, zlen_cons in L. rewrite zlen_nil in L. lia.
    + specialize (G 0). rewrite !zget_cons in G. simpl in G. inversion G; subst. rewrite zget_zrep in Hzz. destruct (_ && _); inversion Hzz. auto.
    + rewrite !zlen_cons in L. rewrite zlen_nil in L. pose proof (zlen_nonneg xs). lia.
Qed.

Lemma fold_write_shown ds t n : 0 <= n -> forall outs tl tl', NoDup (dkeys outs) ->
  foldM (fun tl o => tl_write ds tl (fst o) t n (snd o)) tl outs = Ok tl' ->
  forall nm u, tl' nm u = if (t <=? u) && (u <? t + n) then
                            match dget outs nm with
                            | Some xs => shown (match dget ds nm with Some d => d | None => 0 end) xs (u - t)
                            | None => tl nm u
                            end
                          else tl nm u.
Proof.
  intros Hn. induction outs as [|[k xs] outs IH]; intros tl tl' HN H nm u.
  - inversion H; subst. simpl. destruct (_ && _); auto.
  - simpl in H. apply bind_ok in H as (tl1 & H1 & H). inversion HN as [|? ? HN1 HN2]; subst.
    rewrite (IH tl1 tl') by auto. destruct (tl_write_shown _ _ _ _ _ Hn H1) as (d & Hd & W). rewrite W.
    cbn [dget]. destruct (String.eqb_spec nm k).
    + subst. rewrite (proj2 (dget_None outs k)) by auto. rewrite Hd. destruct ((t <=? u) && (u <? t + n)); auto.
    + simpl. destruct (String.eqb_spec k nm); [congruence|]. auto.
Qed.

(* ------------------------------------------------------------------ declared names *)
Lemma declare_fold : forall l (ds ds' : dims), foldM declare ds l = Ok ds' ->
  NoDup (map fst l) /\ (forall x, In x l -> dget ds (fst x) = None /\ dget ds' (fst x) = Some (snd x)) /\
  (forall k v, dget ds k = Some v -> dget ds' k = Some v).
Proof.
  induction l as [|[k d] l IH]; simpl; intros ds ds' H.
  - inversion H; subst. repeat split; auto; try constructor; tauto.
  - apply bind_ok in H as (ds1 & H1 & H). unfold declare in H1. cbn [fst snd] in H1.
    destruct (dmem ds k) eqn:Q; cbn in H1; inversion H1; subst.
    apply IH in H as (I1 & I2 & I3). assert (Hk : dget ds k = None).
    { unfold dmem in Q. destruct (dget ds k); auto; discriminate. }
    split; [|split].
    + constructor; auto. intros Hin. apply in_map_iff in Hin as ((k2, d2) & Ek & Hin). simpl in Ek. subst.
      destruct (I2 _ Hin) as [G _]. simpl in G. rewrite dget_dset_same in G. discriminate.
    + intros x [Hx|Hx].
      * subst x. simpl. split; auto. apply I3. apply dget_dset_same.
      * destruct (I2 _ Hx) as [G1 G2]. split; auto. destruct (String.eqb_spec (fst x) k) as [Ex|Ex].
        -- rewrite Ex in G1. rewrite dget_dset_same in G1. discriminate.
        -- rewrite dget_dset_other in G1 by auto. auto.
    + intros k2 v G. apply I3. destruct (String.eqb_spec k2 k); [subst; congruence|]. rewrite dget_dset_other; auto.
Qed.

Record names_ok (ct : bool) (ds : dims) (c : coll E) : Prop := {
  no_sep : separate ct (list_prod (c_src c) (c_mic c));
  no_dim : forall k a, the_array c k a -> dget ds k = Some (a_num a);
  no_con : ct = true -> forall s m b, In s (c_src c) -> In m (c_mic c) -> the_array c m b -> dget ds (contrib s m) = Some (a_num b);
  no_arr : ct = true -> forall s m k a, In s (c_src c) -> In m (c_mic c) -> the_array c k a -> k <> contrib s m
}.
Lemma NoDup_map_eq {A B} (f : A -> B) l x y : NoDup (map f l) -> In x l -> In y l -> f x = f y -> x = y.
Proof.
  induction l as [|a l IH]; simpl; intros HN Hx Hy HE; [tauto|]. inversion HN; subst.
  destruct Hx as [->|Hx], Hy as [->|Hy]; auto.
  - exfalso. apply H1. rewrite HE. apply in_map; auto.
  - exfalso. apply H1. rewrite <- HE. apply in_map; auto.
Qed.
Lemma ref_dims_names ct c procs ds : coll_ok c -> ref_dims ct c procs = Ok ds -> names_ok ct ds c.
Proof.
  intros O H. unfold ref_dims in H. apply bind_ok in H as (ds1 & H1 & H). apply bind_ok in H as (ds2 & H2 & H).
  apply declare_fold in H1 as (A1 & A2 & _).
  assert (A3 : forall k a, the_array c k a -> dget ds1 k = Some (a_num a)).
  { intros k a Hk. pose proof (ok_key O _ Hk) as Ek. apply dget_In in Hk.
    destruct (A2 (k, a_num a)); auto. apply in_map_iff. exists (k, a). simpl. rewrite Ek. auto. }
  assert (B3 : forall k v, dget ds2 k = Some v -> dget ds k = Some v).
  { destruct procs as [|p procs]; [inversion H; subst; auto|]. apply declare_fold in H as (_ & _ & B). auto. }
  assert (Hs : forall s, In s (c_src c) -> exists a, the_array c s a). { intros s Hs. apply (src_names _ O) in Hs as (a & Ha & _). eauto. }
  assert (Hm : forall m, In m (c_mic c) -> exists a, the_array c m a). { intros m Hm. apply (mic_names _ O) in Hm as (a & Ha & _). eauto. }
  assert (SM : forall p q, In p (list_prod (c_src c) (c_mic c)) -> In q (list_prod (c_src c) (c_mic c)) -> fst p <> snd q).
  { intros [s m] [s' m'] Hp Hq Eq. apply in_prod_iff in Hp, Hq. simpl in Eq. subst. apply (@mic_not_src _ c m'); tauto. }
  assert (ND : NoDup (list_prod (c_src c) (c_mic c))). { apply NoDup_list_prod; [apply NoDup_src|apply NoDup_mic]; auto. }
  destruct ct.
  - apply bind_ok in H2 as (cs & Hcs & H2). destruct (combos_names O Hcs) as [P1 P2].
    apply declare_fold in H2 as (C1 & C2 & C3).
    assert (P3 : forall s m, In s (c_src c) -> In m (c_mic c) -> exists a b, In (a, b) cs /\ a_name a = s /\ a_name b = m /\ the_array c s a /\ the_array c m b).
    { intros s m Is Im. assert (In (s, m) (list_prod (c_src c) (c_mic c))) as Hin by (apply in_prod; auto).
      rewrite <- P1 in Hin. apply in_map_iff in Hin as ((a, b) & Eab & Hin). simpl in Eab. inversion Eab; subst. exists a, b.
      pose proof (proj1 (P2 a b) Hin). tauto. }
    assert (C4 : forall s m, In s (c_src c) -> In m (c_mic c) -> forall b, the_array c m b -> dget ds1 (contrib s m) = None /\ dget ds2 (contrib s m) = Some (a_num b)).
    { intros s m Is Im b Hb. destruct (P3 s m Is Im) as (a & b' & Hin & Ea & Eb & Ha & Hb').
      assert (b' = b) by (unfold the_array in *; congruence). subst b'.
      destruct (C2 (contrib s m, a_num b)); auto. apply in_map_iff. exists (a, b). simpl. rewrite Ea, Eb. auto. }
    assert (NA : forall s m k a, In s (c_src c) -> In m (c_mic c) -> the_array c k a -> k <> contrib s m).
    { intros s m k a Is Im Hk Eq. destruct (Hm m Im) as [b Hb]. destruct (C4 s m Is Im b Hb) as [G _]. rewrite <- Eq, (A3 k a Hk) in G. discriminate. }
    split.
    + split; auto.
      * intros _ [s m] [s' m'] Hp Hq. apply in_prod_iff in Hp, Hq. simpl. destruct (Hs s) as [a Ha]; [tauto|]. apply (NA s' m' s a); tauto.
      * intros _ [s m] [s' m'] Hp Hq. apply in_prod_iff in Hp, Hq. simpl. destruct (Hm m) as [a Ha]; [tauto|]. apply (NA s' m' m a); tauto.
      * intros _ [s m] [s' m'] Hp Hq Eq. simpl in Eq. apply in_prod_iff in Hp as [Hp1 Hp2], Hq as [Hq1 Hq2].
        destruct (P3 s m) as (a & b & Hin & Ea & Eb & _); auto. destruct (P3 s' m') as (a' & b' & Hin' & Ea' & Eb' & _); auto.
        assert ((a, b) = (a', b')) as Eab. 2:{ inversion Eab; subst; auto. }
        rewrite map_map in C1. eapply NoDup_map_eq; [exact C1| | |]; auto. cbn [fst snd]. rewrite Ea, Eb, Ea', Eb'. auto.
    + intros k a Hk. apply B3, C3, A3; auto.
    + intros _ s m b Is Im Hb. apply B3. apply (C4 s m Is Im b Hb).
    + intros _. exact NA.
  - inversion H2; subst. split; try discriminate.
    + split; auto; discriminate.
    + intros k a Hk. apply B3, A3; auto.
Qed.
End Write.
