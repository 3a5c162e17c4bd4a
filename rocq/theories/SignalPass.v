(** Propagation over all pairs of a collection, on time lines. *)
Require Import Verif.PyBase Verif.PyLemmas Verif.ConfigModel Verif.ArrayModel Verif.ArraySpec Verif.ArrayProofs
  Verif.LoggerModel Verif.SimModel Verif.SimSpec Verif.SimRefine Verif.SimRun Verif.SignalSpec.
Set Implicit Arguments.
Arguments Z.add : simpl never.
Arguments Z.sub : simpl never.

Section Fir.
Context {E : AEnv}.

Definition hist_len (p : path V) : Z := Z.max 0 (p_len p - 1).
Lemma fir_step_conv (p : path V) x t :
  fir_step (mkFir p (map x (zrange (t - hist_len p) t))) (x t) =
  (mkFir p (map x (zrange (t + 1 - hist_len p) (t + 1))), response p x t).
Proof.
  unfold fir_step. cbn [f_path f_buf].
  assert (EI : map x (zrange (t - hist_len p) t) ++ [x t] = map x (zrange (t - hist_len p) (t + 1))).
  { rewrite zrange_snoc by (unfold hist_len; lia). rewrite map_app. reflexivity. }
  rewrite EI. f_equal.
  - f_equal. rewrite zrange_cons by (unfold hist_len; lia). cbn [map skipn].
    replace (t - hist_len p + 1) with (t + 1 - hist_len p) by lia. auto.
  - unfold fir_out, response. apply map_ext_in. intros j _. unfold convolved. f_equal. apply map_ext_in. intros s _.
    f_equal. apply map_ext_in. intros k Hk. apply In_zrange in Hk. f_equal.
    rewrite zget_map, zget_zrange. unfold hist_len.
    destruct (Z.leb_spec 0 (p_len p - 1 - k)), (Z.ltb_spec (p_len p - 1 - k) (t + 1 - (t - Z.max 0 (p_len p - 1)))); simpl; try lia.
    do 2 f_equal. lia.
Qed.
Lemma fir_process_conv (p : path V) x n : forall a,
  fir_process (mkFir p (map x (zrange (a - hist_len p) a))) (map x (zrange a (a + Z.of_nat n))) =
  (mkFir p (map x (zrange (a + Z.of_nat n - hist_len p) (a + Z.of_nat n))), map (response p x) (zrange a (a + Z.of_nat n))).
Proof.
  induction n as [|n IH]; intros a.
  - replace (a + Z.of_nat 0) with a by lia. rewrite !zrange_empty with (a := a) (b := a) by lia. reflexivity.
  - rewrite (@zrange_cons a) by lia. cbn [map fir_process]. rewrite fir_step_conv.
    specialize (IH (a + 1)). replace (a + Z.of_nat (S n)) with (a + 1 + Z.of_nat n) by lia. rewrite IH. reflexivity.
Qed.
Lemma fir_process_conv' (p : path V) x a b : a <= b ->
  fir_process (mkFir p (map x (zrange (a - hist_len p) a))) (map x (zrange a b)) =
  (mkFir p (map x (zrange (b - hist_len p) b)), map (response p x) (zrange a b)).
Proof.
  intros H. pose proof (fir_process_conv p x (Z.to_nat (b - a)) a) as K.
  replace (a + Z.of_nat (Z.to_nat (b - a))) with b in K by lia. exact K.
Qed.
Lemma zlen_response (p : path V) x t : zlen (response p x t) = Z.max 0 (p_nm p).
Proof. unfold response. rewrite zlen_map, zlen_zrange. lia. Qed.
Lemma chan_response (p : path V) x t j : 0 <= j < p_nm p -> chan (response p x t) j = convolved p x t j.
Proof.
  intros H. unfold chan, response. rewrite zget_map, zget_zrange.
  destruct (Z.leb_spec 0 j), (Z.ltb_spec j (p_nm p - 0)); simpl; try lia; f_equal; lia.
Qed.

(** adding frames of the right size one after the other *)
Lemma chan_fadd_eq (a b : frame) j : zlen a = zlen b -> 0 <= j < zlen a -> chan (fadd_eq a b) j = vadd (chan a j) (chan b j).
Proof.
  revert b j; induction a as [|x a IH]; intros [|y b] j HL Hj; rewrite ?zlen_cons, ?zlen_nil in *;
    try (pose proof (zlen_nonneg a); lia); try (pose proof (zlen_nonneg b); lia); try (unfold zlen in Hj; simpl in Hj; lia).
  unfold chan in *. cbn [fadd_eq]. rewrite (zget_cons (vadd x y)), (zget_cons x), (zget_cons y).
  destruct (Z.eqb_spec j 0); auto. apply IH; lia.
Qed.
Lemma frame_ext (a b : frame) : zlen a = zlen b -> (forall j, 0 <= j < zlen a -> chan a j = chan b j) -> a = b.
Proof.
  intros HL H. apply zget_ext_range; auto. intros j Hj. specialize (H j Hj). unfold chan in H.
  destruct (@zget_in_range _ a j) as [x Hx]; auto. destruct (@zget_in_range _ b j) as [y Hy]; [lia|]. rewrite Hx, Hy in *. congruence.
Qed.
Lemma chan_zeros n j : chan (zeros n) j = v0.
Proof. unfold chan, zeros. rewrite zget_zrep. destruct (_ && _); auto. Qed.
Lemma fold_fadd n : forall l (a : frame), zlen a = n -> Forall (fun y => zlen y = n) l ->
  fold_left fadd_tot l a = map (fun j => fold_left vadd (map (fun y => chan y j) l) (chan a j)) (zrange 0 n).
Proof.
  intros l a Ha HF.
  assert (K : zlen (fold_left fadd_tot l a) = n /\
    forall j, 0 <= j < n -> chan (fold_left fadd_tot l a) j = fold_left vadd (map (fun y => chan y j) l) (chan a j)).
  { revert a Ha. induction l as [|y l IH]; intros a Ha; cbn [fold_left map]; auto.
    inversion HF as [|z w Hy HF']; subst.
    assert (Ef : fadd_tot a y = fadd_eq a y). { unfold fadd_tot, fadd. rewrite Hy, Z.eqb_refl. auto. }
    rewrite Ef. destruct (IH HF' (fadd_eq a y)) as [I1 I2]; [apply fadd_eq_len; lia|]. split; auto.
    intros j Hj. rewrite I2, chan_fadd_eq by lia. auto. }
  destruct K as [K1 K2]. apply frame_ext.
  - rewrite K1, zlen_map, zlen_zrange. pose proof (zlen_nonneg a). lia.
  - intros j Hj. rewrite K1 in Hj. rewrite K2 by auto. unfold chan at 3. rewrite zget_map, zget_zrange.
    destruct (Z.leb_spec 0 j), (Z.ltb_spec j (n - 0)); simpl; try lia; auto.
Qed.
Lemma fold_fadd_mix n l : 0 <= n -> Forall (fun y => zlen y = n) l -> fold_left fadd_tot l (zeros n) = mix n l.
Proof.
  intros Hn HF. rewrite fold_fadd with (n := n); auto. 2:{ rewrite zlen_zeros; lia. }
  unfold mix, vsum. apply map_ext. intros j. rewrite chan_zeros. auto.
Qed.
End Fir.

(* ------------------------------------------------------------------ one pair *)
Section Pass.
Context {E : AEnv}.
Notation arr := (arr Pos Src).
Notation acc_t := (dict (dict fir) * timeline)%type.

(** the frame of ys that is added at time u *)
Definition add_at (pick : Z -> option Z) (ys : list frame) (u : Z) (v : frame) : frame :=
  match pick u with
  | Some k => match zget ys k with Some y => fadd_tot v y | None => v end
  | None => v
  end.

Definition pair_rel (ct : bool) (ds : dims) (a b : Z) (pick : Z -> option Z) (acc : acc_t) (sm : string * string) (acc' : acc_t) : Prop :=
  let sn := fst sm in let mn := snd sm in
  exists f f' ys,
    lookup2 (fst acc) sn mn = Some f /\
    fir_process f (map (snd acc sn) (zrange a b)) = (f', ys) /\
    (forall s m, lookup2 (fst acc') s m = if String.eqb s sn && String.eqb m mn then Some f' else lookup2 (fst acc) s m) /\
    (forall nm u, ct = false \/ nm <> contrib sn mn ->
       snd acc' nm u = if String.eqb nm mn then add_at pick ys u (snd acc nm u) else snd acc nm u) /\
    (ct = true -> mn <> contrib sn mn -> Forall (fun y => dget ds (contrib sn mn) = Some (zlen y)) ys ->
       forall u, snd acc' (contrib sn mn) u = match zget ys (u - a) with Some y => y | None => snd acc (contrib sn mn) u end).

Definition pick1 (t u : Z) : option Z := if u =? t then Some 0 else None.
Definition pick0 (u : Z) : option Z := if u <=? 0 then Some 0 else None.
Definition pick_from (a b u : Z) : option Z := if (a <=? u) && (u <? b) then Some (u - a) else None.

Lemma mapM_fit d (ys : list frame) : Forall (fun y => zlen y = d) ys -> mapM (fit d) ys = Ok ys.
Proof.
  induction 1 as [|y ys H HF IH]; simpl; auto. unfold fit at 1. rewrite H, Z.eqb_refl. simpl. rewrite IH. auto.
Qed.
Lemma tl_write_exact ds tl nm t n d ys tl' : dget ds nm = Some d -> Forall (fun y => zlen y = d) ys -> zlen ys = n ->
  tl_write ds tl nm t n ys = Ok tl' ->
  forall nm' u, tl' nm' u = if String.eqb nm' nm then match zget ys (u - t) with Some y => y | None => tl nm' u end else tl nm' u.
Proof.
  intros Hd HF HL H. unfold tl_write, dgetE in H. rewrite Hd in H. cbn [bind] in H. rewrite mapM_fit in H by auto. cbn [bind] in H.
  unfold expand in H. subst n. rewrite Z.eqb_refl in H. cbn [bind] in H. inversion H; subst. auto.
Qed.
Lemma tl_write_other ds tl nm t n ys tl' : tl_write ds tl nm t n ys = Ok tl' -> forall nm' u, nm' <> nm -> tl' nm' u = tl nm' u.
Proof.
  unfold tl_write. intros H nm' u Hn. apply bind_ok in H as (d & _ & H). apply bind_ok in H as (y1 & _ & H). apply bind_ok in H as (y2 & _ & H).
  inversion H; subst. destruct (String.eqb_spec nm' nm); congruence.
Qed.

Lemma same_dim ds nm (ys : list frame) : Forall (fun y => dget ds nm = Some (zlen y)) ys -> ys = [] \/
  exists d, dget ds nm = Some d /\ Forall (fun y => zlen y = d) ys.
Proof.
  destruct ys as [|y ys]; auto. intros HF. right. inversion HF; subst. exists (zlen y). split; auto.
  rewrite Forall_forall in *. intros z Hz. specialize (HF z Hz). congruence.
Qed.

Lemma contrib_part (ct : bool) ds (tl1 tl2 : timeline) nm t n ys :
  zlen ys = n ->
  (if ct then tl_write ds tl1 nm t n ys else Ok tl1) = Ok tl2 ->
  (forall nm' u, ct = false \/ nm' <> nm -> tl2 nm' u = tl1 nm' u) /\
  (ct = true -> Forall (fun y => dget ds nm = Some (zlen y)) ys ->
     forall u, tl2 nm u = match zget ys (u - t) with Some y => y | None => tl1 nm u end).
Proof.
  intros HL H. destruct ct.
  - split.
    + intros nm' u [|Hn]; [discriminate|]. eapply tl_write_other; eauto.
    + intros _ HF u. destruct (same_dim ds nm HF) as [->|(d & Hd & HF')].
      * unfold tl_write in H. apply bind_ok in H as (d & _ & H). cbn [mapM bind] in H. unfold expand in H.
        rewrite zlen_nil in *. subst n. cbn in H. inversion H; subst. rewrite String.eqb_refl, zget_nil. auto.
      * rewrite (@tl_write_exact ds tl1 nm t n d ys tl2) by auto. rewrite String.eqb_refl. auto.
  - inversion H; subst. split; auto. discriminate.
Qed.

Lemma ref_pair_rel ct ds t acc sm acc' : ref_pair ct ds t acc sm = Ok acc' ->
  pair_rel ct ds t (t + 1) (pick1 t) acc (a_name (fst sm), a_name (snd sm)) acc'.
Proof.
  destruct acc as [fs tl]. unfold ref_pair, pair_rel. intros H. cbn [fst snd]. set (sn := a_name (fst sm)) in *. set (mn := a_name (snd sm)) in *.
  apply bind_ok in H as (f & Hf & H). apply dget2E_lookup2 in Hf. apply bind_ok in H as (d & _ & H).
  destruct (fir_step f (tl sn t)) as [f' y] eqn:Q. apply bind_ok in H as (fs' & Hfs & H).
  apply bind_ok in H as (tl1 & H1 & H). apply bind_ok in H as (tl2 & H2 & H). inversion H; subst; clear H. cbn [fst snd].
  exists f, f', [y].
  assert (Er : zrange t (t + 1) = [t]) by (rewrite zrange_cons by lia; rewrite zrange_empty by lia; auto).
  apply dset2_ok in Hfs as (_ & Hfs & _ & _).
  destruct (@contrib_part ct ds tl1 tl2 (contrib sn mn) t 1 [y] eq_refl H2) as [K1 K2].
  assert (A1 : forall nm u, tl1 nm u = if String.eqb nm mn then add_at (pick1 t) [y] u (tl nm u) else tl nm u).
  { intros nm u. unfold tl_add in H1. apply bind_ok in H1 as (d1 & _ & H1). apply bind_ok in H1 as (z & Hz & H1). inversion H1; subst.
    unfold add_at, pick1. destruct (String.eqb_spec nm mn); simpl; auto. subst. destruct (Z.eqb_spec u t); auto. subst.
    simpl. unfold zget. simpl. rewrite (fadd_tot_ok _ _ Hz). auto. }
  repeat split; auto.
  - rewrite Er. cbn [map fir_process]. rewrite Q. auto.
  - intros nm u Hn. rewrite K1 by auto. apply A1.
  - intros Hct Hn HF u. rewrite K2 by auto. destruct (zget [y] (u - t)); auto. rewrite A1.
    destruct (String.eqb_spec (contrib sn mn) mn); auto. congruence.
Qed.
Lemma ref_pair_0_rel ct ds acc sm acc' : ref_pair_at_0 ct ds acc sm = Ok acc' ->
  pair_rel ct ds 0 1 pick0 acc (a_name (fst sm), a_name (snd sm)) acc'.
Proof.
  destruct acc as [fs tl]. unfold ref_pair_at_0, pair_rel. intros H. cbn [fst snd]. set (sn := a_name (fst sm)) in *. set (mn := a_name (snd sm)) in *.
  apply bind_ok in H as (f & Hf & H). apply dget2E_lookup2 in Hf. apply bind_ok in H as (d & _ & H).
  destruct (fir_step f (tl sn 0)) as [f' y] eqn:Q. apply bind_ok in H as (fs' & Hfs & H).
  apply bind_ok in H as (dm & _ & H). apply bind_ok in H as (z & _ & H). apply bind_ok in H as (tl2 & H2 & H). inversion H; subst; clear H. cbn [fst snd].
  exists f, f', [y]. apply dset2_ok in Hfs as (_ & Hfs & _ & _).
  match type of H2 with (if ct then tl_write ds ?x _ _ _ _ else _) = _ => set (tl1 := x) in * end.
  destruct (@contrib_part ct ds tl1 tl2 (contrib sn mn) 0 1 [y] eq_refl H2) as [K1 K2].
  assert (A1 : forall nm u, tl1 nm u = if String.eqb nm mn then add_at pick0 [y] u (tl nm u) else tl nm u).
  { intros nm u. unfold tl1, add_at, pick0. destruct (String.eqb_spec nm mn); simpl; auto. destruct (u <=? 0); auto. }
  repeat split; auto.
  - change (zrange 0 1) with [0]. cbn [map fir_process]. rewrite Q. auto.
  - intros nm u Hn. rewrite K1 by auto. apply A1.
  - intros Hct Hn HF u. rewrite K2 by auto. destruct (zget [y] (u - 0)); auto. rewrite A1.
    destruct (String.eqb_spec (contrib sn mn) mn); auto. congruence.
Qed.
Lemma fadd_list_get : forall xs ys zs k, fadd_list xs ys = Ok zs ->
  zget zs k = match zget xs k, zget ys k with Some x, Some y => Some (fadd_tot x y) | _, _ => None end.
Proof.
  induction xs as [|x xs IH]; intros ys zs k H; cbn [fadd_list] in H.
  - inversion H; subst. rewrite !zget_nil. auto.
  - destruct ys as [|y ys].
    + inversion H; subst. rewrite !zget_nil. destruct (zget _ k); auto.
    + apply bind_ok in H as (z & Hz & H). apply bind_ok in H as (zs' & Hzs & H). inversion H; subst.
      rewrite (zget_cons z), (zget_cons x), (zget_cons y). destruct (k =? 0); [rewrite (fadd_tot_ok _ _ Hz); auto|]. apply IH; auto.
Qed.
Lemma ref_pair_early_rel ct ds n acc sm acc' : 0 <= n -> ref_pair_early ct ds n acc sm = Ok acc' ->
  pair_rel ct ds (1 - n) 1 (pick_from (1 - n) 1) acc (a_name (fst sm), a_name (snd sm)) acc'.
Proof.
  intros Hn0. destruct acc as [fs tl]. unfold ref_pair_early, pair_rel. intros H. cbn [fst snd]. set (sn := a_name (fst sm)) in *. set (mn := a_name (snd sm)) in *.
  apply bind_ok in H as (f & Hf & H). apply dget2E_lookup2 in Hf. apply bind_ok in H as (d & _ & H).
  pose proof (fir_process_len f (map (tl sn) (zrange (1 - n) 1))) as HL.
  destruct (fir_process f (map (tl sn) (zrange (1 - n) 1))) as [f' ys] eqn:Q. apply bind_ok in H as (fs' & Hfs & H).
  cbn [snd] in HL. rewrite zlen_map, zlen_zrange in HL.
  apply bind_ok in H as (dm & _ & H). apply bind_ok in H as (zs & Hzs & H). apply bind_ok in H as (tl2 & H2 & H). inversion H; subst; clear H. cbn [fst snd].
  exists f, f', ys. apply dset2_ok in Hfs as (_ & Hfs & _ & _).
  match type of H2 with (if ct then tl_write ds ?x _ _ _ _ else _) = _ => set (tl1 := x) in * end.
  destruct (@contrib_part ct ds tl1 tl2 (contrib sn mn) (1 - n) n ys ltac:(lia) H2) as [K1 K2].
  assert (A1 : forall nm u, tl1 nm u = if String.eqb nm mn then add_at (pick_from (1 - n) 1) ys u (tl nm u) else tl nm u).
  { intros nm u. unfold tl1, add_at, pick_from. destruct (String.eqb_spec nm mn); simpl; auto. subst.
    rewrite (@fadd_list_get _ _ _ (u - (1 - n)) Hzs), zget_map, zget_zrange.
    destruct (Z.leb_spec (1 - n) u), (Z.ltb_spec u 1), (Z.leb_spec 0 (u - (1 - n))), (Z.ltb_spec (u - (1 - n)) (1 - (1 - n))); simpl; try lia; auto.
    replace (1 - n + (u - (1 - n))) with u by lia. destruct (zget ys (u - (1 - n))); auto. }
  repeat split; auto.
  - intros nm u Hn. rewrite K1 by auto. apply A1.
  - intros Hct Hn HF u. rewrite K2 by auto. destruct (zget ys (u - (1 - n))); auto. rewrite A1.
    destruct (String.eqb_spec (contrib sn mn) mn); auto. congruence.
Qed.

(* ------------------------------------------------------------------ all pairs *)
Fixpoint pass_rel (ct : bool) ds a b pick (l : list (string * string)) (acc acc' : acc_t) : Prop :=
  match l with
  | [] => acc' = acc
  | sm :: r => exists acc1, pair_rel ct ds a b pick acc sm acc1 /\ pass_rel ct ds a b pick r acc1 acc'
  end.
Lemma pass_fold (f : acc_t -> arr * arr -> res acc_t) ct ds a b pick l : forall acc acc',
  (forall acc sm acc', f acc sm = Ok acc' -> pair_rel ct ds a b pick acc (a_name (fst sm), a_name (snd sm)) acc') ->
  foldM f acc l = Ok acc' -> pass_rel ct ds a b pick (pair_names l) acc acc'.
Proof.
  induction l as [|sm l IH]; simpl; intros acc acc' Hf H.
  - inversion H; auto.
  - apply bind_ok in H as (acc1 & H1 & H). exists acc1. split; [apply Hf; auto|apply IH; auto].
Qed.

Definition outputs a b (acc : acc_t) (sm : string * string) : list frame :=
  match lookup2 (fst acc) (fst sm) (snd sm) with
  | Some f => snd (fir_process f (map (snd acc (fst sm)) (zrange a b)))
  | None => []
  end.

(** names of sources, microphones and contributions do not clash *)
Record separate (ct : bool) (l : list (string * string)) : Prop := {
  sp_nodup : NoDup l;
  sp_sm : forall p q, In p l -> In q l -> fst p <> snd q;
  sp_sc : ct = true -> forall p q, In p l -> In q l -> fst p <> contrib (fst q) (snd q);
  sp_mc : ct = true -> forall p q, In p l -> In q l -> snd p <> contrib (fst q) (snd q);
  sp_cc : ct = true -> forall p q, In p l -> In q l -> contrib (fst p) (snd p) = contrib (fst q) (snd q) -> p = q
}.
Lemma separate_tail ct x l : separate ct (x :: l) -> separate ct l.
Proof.
  intros [S1 S2 S3 S4 S5]. inversion S1; subst. split; auto; intros; [apply S2|apply S3|apply S4|apply S5]; simpl; auto.
Qed.

Lemma pass_spec ct ds a b pick l : forall acc acc', separate ct l -> pass_rel ct ds a b pick l acc acc' ->
  (forall s m, In (s, m) l -> exists f, lookup2 (fst acc) s m = Some f /\
     lookup2 (fst acc') s m = Some (fst (fir_process f (map (snd acc s) (zrange a b))))) /\
  (forall s m, ~ In (s, m) l -> lookup2 (fst acc') s m = lookup2 (fst acc) s m) /\
  (forall nm u, ct = false \/ (forall p, In p l -> nm <> contrib (fst p) (snd p)) ->
     snd acc' nm u = fold_left (fun v p => if String.eqb nm (snd p) then add_at pick (outputs a b acc p) u v else v) l (snd acc nm u)) /\
  (ct = true -> forall p, In p l -> Forall (fun y => dget ds (contrib (fst p) (snd p)) = Some (zlen y)) (outputs a b acc p) ->
     forall u, snd acc' (contrib (fst p) (snd p)) u =
       match zget (outputs a b acc p) (u - a) with Some y => y | None => snd acc (contrib (fst p) (snd p)) u end).
Proof.
  induction l as [|[sn mn] l IH]; intros acc acc' HS H.
  - simpl in H. subst. repeat split; simpl; auto; tauto.
  - destruct H as (acc1 & (f & f' & ys & Hf & HP & HF & HT & HC) & H). cbn [fst snd] in *.
    pose proof (separate_tail HS) as HS'. specialize (IH acc1 acc' HS' H) as (I1 & I2 & I3 & I4).
    destruct HS as [S1 S2 S3 S4 S5]. inversion S1 as [|? ? S1a S1b]; subst.
    (* sources unchanged by the first pair *)
    assert (Hsrc : forall s m u, In (s, m) ((sn, mn) :: l) -> snd acc1 s u = snd acc s u).
    { intros s m u Hin. rewrite HT.
      - destruct (String.eqb_spec s mn); auto. exfalso. apply (S2 (s, m) (sn, mn)); simpl; auto.
      - destruct ct; auto. right. apply (S3 eq_refl (s, m) (sn, mn)); simpl; auto. }
    assert (Hsrc' : forall s m, In (s, m) ((sn, mn) :: l) -> map (snd acc1 s) (zrange a b) = map (snd acc s) (zrange a b)).
    { intros s m Hin. apply map_ext. intros u. eapply Hsrc; eauto. }
    assert (Hout : forall p, In p l -> outputs a b acc1 p = outputs a b acc p).
    { intros [s m] Hin. unfold outputs. cbn [fst snd]. rewrite HF, (@Hsrc' s m) by (simpl; auto).
      destruct (String.eqb_spec s sn), (String.eqb_spec m mn); simpl; auto. subst. contradiction. }
    assert (Hys : outputs a b acc (sn, mn) = ys). { unfold outputs. cbn [fst snd]. rewrite Hf, HP. auto. }
    split; [|split; [|split]].
    + intros s m [Hin|Hin].
      * inversion Hin; subst. exists f. split; auto. rewrite I2 by auto. rewrite HF, !String.eqb_refl. simpl. rewrite HP. auto.
      * destruct (I1 s m Hin) as (g & G1 & G2). rewrite (@Hsrc' s m) in G2 by (simpl; auto). rewrite HF in G1.
        destruct (String.eqb_spec s sn), (String.eqb_spec m mn); simpl in G1; subst; try contradiction; eauto.
    + intros s m Hin. simpl in Hin. rewrite I2 by tauto. rewrite HF.
      destruct (String.eqb_spec s sn), (String.eqb_spec m mn); simpl; auto. subst. exfalso. auto.
    + intros nm u Hn. cbn [fold_left snd]. rewrite I3.
      2:{ destruct Hn as [|Hn]; auto. right. intros; apply Hn; simpl; auto. }
      rewrite HT. 2:{ destruct Hn as [|Hn]; auto. right. apply (Hn (sn, mn)); simpl; auto. }
      rewrite Hys. generalize (if (nm =? mn)%string then add_at pick ys u (snd acc nm u) else snd acc nm u).
      clear - Hout. induction l as [|p l IHl]; simpl; intros v; auto.
      rewrite (Hout p) by (simpl; auto). apply IHl. intros; apply Hout; simpl; auto.
    + intros Hct p [Hin|Hin] HFo u.
      * subst p. cbn [fst snd] in *. rewrite Hys in *.
        rewrite I3.
        2:{ right. intros q Hq Eq. apply S1a. rewrite (S5 Hct (sn, mn) q); simpl; auto. }
        rewrite <- HC; auto. 2:{ apply (S4 Hct (sn, mn) (sn, mn)); simpl; auto. }
        assert (Hno : forall q, In q l -> (contrib sn mn =? snd q)%string = false).
        { intros q Hq. apply String.eqb_neq. intros Eq. apply (S4 Hct q (sn, mn)); simpl; auto. }
        generalize (snd acc1 (contrib sn mn) u). clear - Hno.
        induction l as [|q l IHl]; simpl; intros v; auto. rewrite Hno by (simpl; auto). apply IHl. intros; apply Hno; simpl; auto.
      * rewrite I4; auto. 2:{ rewrite Hout; auto. } rewrite Hout by auto.
        destruct (zget (outputs a b acc p) (u - a)); auto. rewrite HT.
        -- destruct (String.eqb_spec (contrib (fst p) (snd p)) mn); auto. exfalso.
           apply (S4 Hct (sn, mn) p); simpl; auto.
        -- right. intros Eq. apply S1a. rewrite <- (S5 Hct p (sn, mn)); simpl; auto.
Qed.

(** the pairs of list_prod with microphone m are the sources *)
Lemma fold_prod {A} (h : string -> A -> A) m (srcs mics : list string) : NoDup mics -> In m mics ->
  forall v, fold_left (fun v p => if String.eqb m (snd p) then h (fst p) v else v) (list_prod srcs mics) v = fold_left (fun v s => h s v) srcs v.
Proof.
  intros HN Hm. assert (K : forall s l v, NoDup l -> In m l -> fold_left (fun v p => if String.eqb m (snd p) then h (fst p) v else v) (map (fun y => (s, y)) l) v = h s v).
  { intros s l. assert (K0 : forall l v, ~ In m l -> fold_left (fun v p => if String.eqb m (snd p) then h (fst p) v else v) (map (fun y => (s, y)) l) v = v).
    { clear l. induction l as [|y l IH]; simpl; intros v Hy; auto. destruct (String.eqb_spec m y); [subst; exfalso; auto|]. apply IH; auto. }
    induction l as [|y l IH]; simpl; intros v HNl Hin; [tauto|]. inversion HNl; subst. destruct (String.eqb_spec m y).
    - subst. rewrite K0; auto.
    - apply IH; auto. destruct Hin; congruence. }
  induction srcs as [|s srcs IH]; simpl; intros v; auto. rewrite fold_left_app, K; auto.
Qed.
Lemma fold_none {A} (h : string * string -> A -> A) nm (l : list (string * string)) : (forall p, In p l -> nm <> snd p) ->
  forall v, fold_left (fun v p => if String.eqb nm (snd p) then h p v else v) l v = v.
Proof.
  induction l as [|p l IH]; simpl; intros Hn v; auto. destruct (String.eqb_spec nm (snd p)); [exfalso; eapply Hn; eauto|]. apply IH; auto.
Qed.
End Pass.
