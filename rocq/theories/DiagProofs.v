(** Lemmas about what diagnostics store. *)
From Coq Require Import Sorted.
Require Import Verif.PyBase Verif.PyLemmas Verif.ConfigModel Verif.ArrayModel
  Verif.LoggerModel Verif.LoggerSpec Verif.LoggerProofs Verif.SimModel Verif.SimSpec Verif.SimDiag Verif.DiagModel Verif.DiagSpec.
Set Implicit Arguments.
Arguments Z.add : simpl never.
Arguments Z.sub : simpl never.
Arguments Z.mul : simpl never.
Ltac Zify.zify_post_hook ::= Z.div_mod_to_equations.

(* ------------------------------------------------------------------ increasing lists *)
Notation increasing := (StronglySorted Z.lt).
Lemma increasing_zrange a b : increasing (zrange a b).
Proof.
  destruct (Z.le_gt_cases b a); [rewrite zrange_empty by lia; constructor|].
  remember (Z.to_nat (b - a)) as n eqn:En. revert a En H. induction n as [|n IH]; intros a En H; [lia|].
  rewrite zrange_cons by lia. destruct (Z.eq_dec (a + 1) b) as [<-|].
  - rewrite zrange_empty by lia. repeat constructor.
  - constructor; [apply IH; lia|]. apply Forall_forall. intros x Hx. apply In_zrange in Hx. lia.
Qed.
Lemma increasing_filter f l : increasing l -> increasing (filter f l).
Proof.
  induction 1 as [|x l H IH F]; simpl; [constructor|]. destruct (f x); auto. constructor; auto.
  rewrite Forall_forall in *. intros y Hy. apply filter_In in Hy. apply F. tauto.
Qed.
Lemma increasing_app l1 l2 : increasing l1 -> increasing l2 -> (forall x y, In x l1 -> In y l2 -> x < y) -> increasing (l1 ++ l2).
Proof.
  induction l1 as [|x l1 IH]; simpl; intros H1 H2 H; auto. inversion H1; subst. constructor; [apply IH; auto|].
  rewrite Forall_forall in *. intros y Hy. apply in_app_or in Hy as [Hy|Hy]; auto.
Qed.
Lemma increasing_app_inv l1 l2 : increasing (l1 ++ l2) -> increasing l1 /\ increasing l2 /\ (forall x y, In x l1 -> In y l2 -> x < y).
Proof.
  induction l1 as [|x l1 IH]; simpl; intros H; [repeat split; auto; [constructor|contradiction]|]. inversion H; subst.
  destruct (IH H2) as (A & B & C). rewrite Forall_forall in H3. repeat split; auto.
  - constructor; auto. apply Forall_forall. intros y Hy. apply H3. apply in_or_app; auto.
  - intros y z [->|Hy] Hz; [apply H3; apply in_or_app; auto|auto].
Qed.
Lemma increasing_ext l1 : forall l2, increasing l1 -> increasing l2 -> (forall x, In x l1 <-> In x l2) -> l1 = l2.
Proof.
  induction l1 as [|x l1 IH]; intros l2 H1 H2 H.
  - destruct l2 as [|y l2]; auto. exfalso. apply (H y). simpl; auto.
  - destruct l2 as [|y l2]; [exfalso; apply (H x); simpl; auto|].
    inversion H1 as [|a b A1 A2]; subst. inversion H2 as [|a b B1 B2]; subst. rewrite Forall_forall in A2, B2.
    assert (x = y).
    { destruct (proj1 (H x) (or_introl eq_refl)) as [<-|Hx]; auto. destruct (proj2 (H y) (or_introl eq_refl)) as [->|Hy]; auto.
      specialize (A2 _ Hy). specialize (B2 _ Hx). lia. }
    subst y. f_equal. apply IH; auto. intros z. split; intros Hz.
    + destruct (proj1 (H z) (or_intror Hz)) as [<-|]; auto. specialize (A2 _ Hz). lia.
    + destruct (proj2 (H z) (or_intror Hz)) as [<-|]; auto. specialize (B2 _ Hz). lia.
Qed.
Lemma In_times l t : In t (times l) <-> exists iv, In iv l /\ fst iv <= t < snd iv.
Proof.
  unfold times. rewrite in_flat_map. split; intros (iv & H1 & H2); exists iv; split; auto; apply In_zrange; auto.
Qed.
Lemma ivs_ok_times lo l t : ivs_ok lo l -> In t (times l) -> lo <= t.
Proof.
  intros H Ht. apply In_times in Ht as ([s e] & Hi & Ht). revert lo H Hi. induction l as [|[s' e'] l IH]; simpl; intros lo H Hi; [tauto|].
  destruct Hi as [Q|Hi]; [inversion Q; subst; simpl in *; lia|]. destruct H as (A & B & C). specialize (IH _ C Hi). lia.
Qed.
Lemma increasing_times lo l : ivs_ok lo l -> increasing (times l).
Proof.
  revert lo. induction l as [|[s e] l IH]; simpl; intros lo H; [constructor|].
  apply increasing_app; [apply increasing_zrange|eapply IH; apply H|].
  intros x y Hx Hy. apply In_zrange in Hx. assert (e <= y) by (eapply ivs_ok_times; [apply H|auto]). simpl in *. lia.
Qed.

(* ------------------------------------------------------------------ tiles *)
Section Tiles.
Variables (last : Z -> bool) (lo : Z) (l : list (Z * Z)) (n : nat) (ts rest : list (Z * Z)).
Hypothesis HL : ivs_ok lo l.
Hypothesis HT : tiles_ok last l n ts rest.

(** all intervals end within the run: everything has been saved *)
Lemma tiles_complete : Forall (fun iv => snd iv < Z.of_nat n) l -> rest = [] /\ times ts = times l.
Proof.
  intros H. assert (rest = []) as ->.
  { destruct rest as [|iv r]; auto. pose proof (to_rest HT) as F. inversion F as [|x y [I1 I2] _]; subst.
    destruct I1 as (jv & Hj & _ & Hj2). rewrite Forall_forall in H. specialize (H _ Hj). lia. }
  split; auto. pose proof (to_times HT) as Q. simpl in Q. rewrite app_nil_r in Q. auto.
Qed.
Lemma tiles_sorted : increasing (times ts) /\ (forall x y, In x (times ts) -> In y (times rest) -> x < y).
Proof. pose proof (@increasing_times _ _ HL) as H. rewrite <- (to_times HT) in H. apply increasing_app_inv in H. tauto. Qed.
Lemma tile_range t : In t ts -> lo <= fst t < snd t.
Proof.
  intros Ht. pose proof (to_tile HT) as F. rewrite Forall_forall in F. destruct (F _ Ht) as (I & F1 & _). split; auto.
  destruct I as (iv & Hi & A & _). pose proof (@ivs_ok_starts _ _ HL) as G. rewrite Forall_forall in G. specialize (G _ Hi). simpl in G. lia.
Qed.
(** when an export at time e is due, everything before e that was asked for has been saved *)
Lemma until_complete e : Forall (fun t => snd t <= last_end ts) ts -> e <= last_end ts -> 1 <= e -> forall t, t < e ->
  (In t (times (tiles_until e ts)) <-> In t (times l)).
Proof.
  intros HE He He1 t Ht. destruct tiles_sorted as [S1 S2].
  assert (Hne : ts <> []) by (intros ->; simpl in He; lia).
  assert (HlastIn : In (last_end ts - 1) (times ts)).
  { destruct (last_end_In Hne) as (x & Hx & Ex). apply In_times. exists x. split; auto. pose proof (tile_range _ Hx). lia. }
  rewrite <- (to_times HT). rewrite in_app_iff.
  assert (Hr : ~ In t (times rest)) by (intros Q; specialize (S2 _ _ HlastIn Q); lia).
  transitivity (In t (times ts)); [|tauto].
  assert (Hpos : Forall (fun t => fst t < snd t) ts) by (apply Forall_forall; intros x Hx; apply (tile_range _ Hx)).
  clear - S1 Ht Hpos. revert S1 Hpos. induction ts as [|x r IH]; intros S1 Hpos; [simpl; tauto|].
  cbn [tiles_until]. inversion Hpos; subst. change (times (x :: r)) with (zrange (fst x) (snd x) ++ times r) in *.
  apply increasing_app_inv in S1 as (A & B & C). destruct (Z.leb_spec e (snd x)).
  - unfold times at 1. simpl. rewrite app_nil_r, in_app_iff. split; auto. intros [Q|Q]; auto.
    specialize (C (snd x - 1) t). rewrite In_zrange in C. lia.
  - change (times (x :: tiles_until e r)) with (zrange (fst x) (snd x) ++ times (tiles_until e r)). rewrite !in_app_iff. rewrite IH; tauto.
Qed.
Lemma until_In e t : In t (tiles_until e ts) -> In t ts.
Proof. clear. induction ts as [|x l' IH]; simpl; auto. destruct (e <=? snd x); simpl; intuition. Qed.
End Tiles.

(* ------------------------------------------------------------------ stores indexed by time *)
Section Columns.
Context {E : AEnv} {N : DEnv}.
Variables PS0 D0 Out0 : Type.
Variable dsave0 : D0 -> option PS0 -> dict (list frame) -> Z * Z -> res D0.
Variable dout0 : D0 -> Z -> res Out0.
Local Instance FS : SEnv := full dsave0 dout0.

Lemma mapM_zget {A B} (f : A -> res B) l l' : mapM f l = Ok l' -> zlen l' = zlen l /\
  forall k x, zget l k = Some x -> exists y, f x = Ok y /\ zget l' k = Some y.
Proof.
  revert l'. induction l as [|x l IH]; simpl; intros l' H.
  - inversion H; subst. split; auto. intros k x Hx. rewrite zget_nil in Hx. discriminate.
  - apply bind_ok in H as (y & Hy & H). apply bind_ok in H as (ys & Hys & H). inversion H; subst. destruct (IH _ Hys) as [A1 A2].
    split; [rewrite !zlen_cons; lia|]. intros k z Hz. rewrite (zget_cons x) in Hz. rewrite (zget_cons y). destruct (k =? 0); [inversion Hz; subst; eauto|apply (A2 _ _ Hz)].
Qed.
Lemma window_dget ds (tl : timeline) a b nm : dget (window ds tl a b) nm = match dget ds nm with Some _ => Some (map (tl nm) (zrange a b)) | None => None end.
Proof.
  unfold window. induction ds as [|[k d] ds IH]; simpl; auto. destruct (String.eqb_spec nm k); subst; auto.
Qed.
Lemma window_dgetE ds (tl : timeline) a b nm x : dgetE (window ds tl a b) nm = Ok x -> x = map (tl nm) (zrange a b).
Proof. unfold dgetE. rewrite window_dget. destruct (dget ds nm); intros H; inversion H; auto. Qed.
Lemma zget_window (tl : timeline) nm a b k : zget (map (tl nm) (zrange a b)) k = if (0 <=? k) && (k <? b - a) then Some (tl nm (a + k)) else None.
Proof. rewrite zget_map, zget_zrange. destruct (_ && _); auto. Qed.

Lemma pick_selected chans x y : pick chans x = Ok y -> selected chans x y.
Proof.
  unfold pick, selected. destruct chans as [l|]; [|intros H; inversion H; auto]. revert y. induction l as [|ch l IH]; simpl; intros y H.
  - inversion H; constructor.
  - apply bind_ok in H as (v & Hv & H). apply bind_ok in H as (vs & Hvs & H). inversion H; subst. constructor; auto.
    unfold pick1 in Hv. destruct (zget x _); inversion Hv; auto.
Qed.
Lemma fit_fills num y f : fit num y = Ok f -> fills num y f.
Proof.
  unfold fit, fills. intros Q. destruct (Z.eqb_spec (zlen y) num).
  - left. inversion Q. split; congruence.
  - right. destruct y as [|v [|w y]]; try discriminate. inversion Q. exists v. auto.
Qed.
(** one save *)
Definition writes (val : Z -> frame -> Prop) (a b : Z) (cols cols' : columns) : Prop :=
  zlen cols' = zlen cols /\
  forall t, (a <= t < b -> exists f, val t f /\ zget cols' t = Some (Some f)) /\ (~ (a <= t < b) -> zget cols' t = zget cols t).
Lemma writes_set val a b cols x cols' : 0 <= a < b -> b <= zlen cols -> zlen x = b - a ->
  (forall k, 0 <= k < b - a -> exists f, val (a + k) f /\ zget x k = Some f) ->
  pyslice_set cols a b (map Some x) = Ok cols' -> writes val a b cols cols'.
Proof.
  intros Ha Hb Hx Hv H. pose proof (@pyslice_set_in _ cols a b (map Some x)) as Q. rewrite zlen_map in Q.
  destruct Q as (l' & Q1 & Q2 & Q3); [lia|lia|lia|]. rewrite H in Q1. inversion Q1; subst l'. split; auto.
  intros t. rewrite Q3. split; intros Ht.
  - destruct (Hv (t - a)) as (f & F1 & F2); [lia|]. replace (a + (t - a)) with t in F1 by lia. exists f. split; auto.
    destruct ((a <=? t) && (t <? b)) eqn:Q; [|lia]. rewrite zget_map, F2. auto.
  - destruct ((a <=? t) && (t <? b)) eqn:Q; [lia|auto].
Qed.

Lemma cols_saves (mk : columns -> D) (val : Z -> frame -> Prop) ds (tl : timeline) ps :
  (forall cols a b p d', 0 <= a < b -> b <= zlen cols -> dsave (mk cols) p (window ds tl a b) (a, b) = Ok d' ->
     exists cols', d' = mk cols' /\ writes val a b cols cols') ->
  forall ts cols d', Forall (fun t => 0 <= fst t < snd t /\ snd t <= zlen cols) ts ->
  saves ds tl ps (mk cols) ts = Ok d' -> exists cols', d' = mk cols' /\ zlen cols' = zlen cols /\
    forall t, (In t (times ts) -> exists f, val t f /\ zget cols' t = Some (Some f)) /\ (~ In t (times ts) -> zget cols' t = zget cols t).
Proof.
  intros HS. induction ts as [|[a b] ts IH]; intros cols d' HF H.
  - simpl in H. inversion H; subst. exists cols. split; auto. split; auto. intros t. split; [intros []|auto].
  - cbn [saves foldM] in H. apply bind_ok in H as (d1 & H1 & H). inversion HF as [|x y [A1 A2] A3]; subst. cbn [fst snd] in *.
    destruct (HS _ _ _ _ _ A1 A2 H1) as (c1 & -> & W1 & W2).
    destruct (IH c1 d') as (c2 & -> & B1 & B2); auto; [rewrite W1; auto|]. exists c2. split; auto. split; [lia|].
    intros t. change (times ((a, b) :: ts)) with (zrange a b ++ times ts). rewrite in_app_iff, In_zrange.
    destruct (B2 t) as [C1 C2]. destruct (W2 t) as [D1 D2].
    destruct (in_dec Z.eq_dec t (times ts)) as [Hi|Hi].
    + split; [auto|tauto].
    + rewrite (C2 Hi). split; [intros [Q|Q]; [auto|tauto]|]. intros Q. apply D2. tauto.
Qed.

(* ------------------------------------------------------------------ RecordSignal, SignalPower *)
Lemma record_writes name num chans ds (tl : timeline) cols a b p d' : 0 <= a < b -> b <= zlen cols ->
  dsave (SEnv := FS) (DRecordSignal (mkRecSignal name num chans cols)) p (window ds tl a b) (a, b) = Ok d' ->
  exists cols', d' = DRecordSignal (mkRecSignal name num chans cols') /\ writes (fun t f => column chans num (tl name t) f) a b cols cols'.
Proof.
  intros Ha Hb H. cbn in H. apply bind_ok in H as (r & H & H'). inversion H'; subst d'; clear H'.
  unfold record_signal_save in H. cbn [rs_name rs_num rs_chans rs_data fst snd] in H.
  apply bind_ok in H as (x & H1 & H). apply window_dgetE in H1. subst x. apply bind_ok in H as (y & H2 & H). apply bind_ok in H as (z & H3 & H).
  apply bind_ok in H as (c' & H4 & H). inversion H; subst r. exists c'. split; auto.
  apply mapM_zget in H2 as [L2 G2]. apply mapM_zget in H3 as [L3 G3]. rewrite zlen_map, zlen_zrange in L2.
  eapply writes_set; [lia|lia| | |exact H4]; [lia|].
  intros k Hk. destruct (G2 k (tl name (a + k))) as (u & U1 & U2).
  { rewrite zget_window. destruct ((0 <=? k) && (k <? b - a)) eqn:Q; auto; lia. }
  destruct (G3 k u U2) as (v & V1 & V2). exists v. split; auto. exists u. split; [apply pick_selected; auto|apply fit_fills; auto].
Qed.
Lemma power_writes name chans ds (tl : timeline) cols a b p d' : 0 <= a < b -> b <= zlen cols ->
  dsave (SEnv := FS) (DSignalPower (mkSigPower name chans cols)) p (window ds tl a b) (a, b) = Ok d' ->
  exists cols', d' = DSignalPower (mkSigPower name chans cols') /\
    writes (fun t f => exists y, selected chans (tl name t) y /\ f = [mean_power y]) a b cols cols'.
Proof.
  intros Ha Hb H. cbn in H. apply bind_ok in H as (r & H & H'). inversion H'; subst d'; clear H'.
  unfold signal_power_save in H. cbn [sp_name sp_chans sp_data fst snd] in H.
  apply bind_ok in H as (x & H1 & H). apply window_dgetE in H1. subst x. apply bind_ok in H as (y & H2 & H).
  apply bind_ok in H as (c' & H4 & H). inversion H; subst r. exists c'. split; auto.
  apply mapM_zget in H2 as [L2 G2]. rewrite zlen_map, zlen_zrange in L2.
  rewrite <- (map_map (fun f => [mean_power f]) Some) in H4.
  eapply writes_set; [lia|lia| | |exact H4]; [rewrite zlen_map; lia|].
  intros k Hk. destruct (G2 k (tl name (a + k))) as (u & U1 & U2).
  { rewrite zget_window. destruct ((0 <=? k) && (k <? b - a)) eqn:Q; auto; lia. }
  exists [mean_power u]. split; [exists u; split; auto; apply pick_selected; auto|]. rewrite zget_map, U2. auto.
Qed.

End Columns.

(* ------------------------------------------------------------------ values up to an index *)
Section UpTo.
Context {E : AEnv}.
Lemma stored_spec (cols : columns) : forall a, 
  let l := stored_cols (combine cols (zrange a (a + zlen cols))) in
  map snd l = filter (fun t => match zget cols (t - a) with Some (Some _) => true | _ => false end) (zrange a (a + zlen cols)) /\
  Forall2 (fun t f => zget cols (t - a) = Some (Some f)) (map snd l) (map fst l).
Proof.
  induction cols as [|x cols IH]; intros a; cbv zeta.
  - rewrite zlen_nil, zrange_empty by lia. simpl. split; auto.
  - rewrite zlen_cons. pose proof (zlen_nonneg cols). rewrite zrange_cons by lia. replace (a + (1 + zlen cols)) with (a + 1 + zlen cols) by lia.
    destruct (IH (a + 1)) as [I1 I2]. cbn [combine stored_cols flat_map]. cbn [filter].
    fold (@stored_cols frame). rewrite zget_cons. destruct (Z.eqb_spec (a - a) 0); [|lia].
    assert (Q : forall t, In t (zrange (a + 1) (a + 1 + zlen cols)) -> zget (x :: cols) (t - a) = zget cols (t - (a + 1))).
    { intros t Ht. apply In_zrange in Ht. rewrite zget_cons. destruct (Z.eqb_spec (t - a) 0); [lia|]. f_equal. lia. }
    assert (F : filter (fun t => match zget (x :: cols) (t - a) with Some (Some _) => true | _ => false end) (zrange (a + 1) (a + 1 + zlen cols)) =
                filter (fun t => match zget cols (t - (a + 1)) with Some (Some _) => true | _ => false end) (zrange (a + 1) (a + 1 + zlen cols))).
    { apply filter_ext_in. intros t Ht. rewrite (Q t Ht). auto. }
    rewrite F. clear F. fold (@combine (option frame) Z). cbn [fst].
    assert (I3 : Forall2 (fun t f => zget (x :: cols) (t - a) = Some (Some f))
        (map snd (stored_cols (combine cols (zrange (a + 1) (a + 1 + zlen cols))))) (map fst (stored_cols (combine cols (zrange (a + 1) (a + 1 + zlen cols)))))).
    { eapply Forall2_impl; [|exact I2]. intros t f Ht Hf. rewrite Q; auto. rewrite I1 in Ht. apply filter_In in Ht. tauto. }
    destruct x as [f|]; cbn [app map fst snd].
    + split; [f_equal; auto|]. constructor; auto. rewrite zget_cons. destruct (Z.eqb_spec (a - a) 0); [auto|lia].
    + split; auto.
Qed.
Lemma up_to_idx_spec num cols e vals ts : values_up_to_idx num cols e = Ok (vals, ts) -> 0 <= e ->
  1 <= num /\ e <= zlen cols /\
  ts = filter (fun t => match zget cols t with Some (Some _) => true | _ => false end) (zrange 0 e) /\
  Forall2 (fun t f => zget cols t = Some (Some f)) ts vals.
Proof.
  unfold values_up_to_idx. destruct (Z.leb_spec num 0); [discriminate|]. intros H0 He.
  destruct (Z.eqb_spec (zlen (pyslice cols 0 e)) (Z.max 0 e)) as [Hl|]; cbn [negb] in H0; [|discriminate].
  assert (Hle : e <= zlen cols).
  { rewrite zlen_pyslice in Hl. pose proof (zlen_nonneg cols). unfold norm_idx in Hl. destruct (e <? 0) eqn:Q1, (0 <? 0) eqn:Q2; lia. }
  inversion H0; subst; clear H0. split; [lia|]. split; auto.
  pose proof (stored_spec (pyslice cols 0 e) 0) as [I1 I2]. rewrite Hl in I1, I2. replace (0 + Z.max 0 e) with e in I1, I2 by lia.
  assert (Q : forall t, In t (zrange 0 e) -> zget (pyslice cols 0 e) (t - 0) = zget cols t).
  { intros t Ht. apply In_zrange in Ht. rewrite zget_pyslice_in by lia. destruct ((0 <=? t - 0) && (t - 0 <? e - 0)) eqn:Q; [|lia]. f_equal. lia. }
  split.
  - rewrite I1. apply filter_ext_in. intros t Ht. rewrite (Q t Ht). auto.
  - eapply Forall2_impl; [|exact I2]. intros t f Ht Hf. rewrite <- Q; auto. rewrite I1 in Ht. apply filter_In in Ht. tauto.
Qed.
End UpTo.
