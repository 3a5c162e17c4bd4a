(** Lemmas about state and instant diagnostics. *)
From Coq Require Import Sorted.
Require Import Verif.PyBase Verif.PyLemmas Verif.ConfigModel Verif.ArrayModel
  Verif.LoggerModel Verif.LoggerSpec Verif.LoggerProofs Verif.SimModel Verif.SimSpec Verif.SimDiag Verif.DiagModel Verif.DiagSpec Verif.DiagProofs
  Verif.DiagCtorModel Verif.DiagCtorProofs.
Set Implicit Arguments.
Arguments Z.add : simpl never.
Arguments Z.sub : simpl never.
Arguments Z.mul : simpl never.
Ltac Zify.zify_post_hook ::= Z.div_mod_to_equations.

(* ------------------------------------------------------------------ unit intervals are never split *)
Lemma times_unit es : times (unit_ivs es) = map (fun e => e - 1) es.
Proof.
  induction es as [|e es IH]; simpl; auto. unfold times in *. cbn [flat_map fst snd]. rewrite IH.
  assert (zrange (e - 1) e = [e - 1]) as ->; auto. rewrite zrange_cons by lia. rewrite zrange_empty by lia. auto.
Qed.
Lemma unit_shape ts : Forall (fun t => snd t = fst t + 1) ts -> ts = map (fun t => (t, t + 1)) (times ts).
Proof.
  induction 1 as [|[a b] ts H _ IH]; auto. cbn [fst snd] in H. subst b. unfold times. cbn [flat_map fst snd].
  assert (zrange a (a + 1) = [a]) as ->. { rewrite zrange_cons by lia. rewrite zrange_empty by lia. auto. }
  cbn [app map]. f_equal. auto.
Qed.
Lemma unit_tiles last lo es n ts rest : ivs_ok lo (unit_ivs es) -> tiles_ok last (unit_ivs es) n ts rest ->
  Forall (fun e => e < Z.of_nat n) es -> ts = unit_ivs es.
Proof.
  intros HO HT HF. assert (HN : Forall (fun iv => snd iv < Z.of_nat n) (unit_ivs es)).
  { unfold unit_ivs. apply Forall_forall. intros x Hx. apply in_map_iff in Hx as (e & <- & He). rewrite Forall_forall in HF. apply HF; auto. }
  destruct (tiles_complete HT HN) as [_ Q]. rewrite (@unit_shape ts).
  - rewrite Q, times_unit. unfold unit_ivs. rewrite map_map. apply map_ext. intros e. f_equal. lia.
  - apply Forall_forall. intros t Ht. pose proof (to_tile HT) as G. rewrite Forall_forall in G. destruct (G _ Ht) as ((iv & I1 & I2 & I3) & G2 & _).
    unfold unit_ivs in I1. apply in_map_iff in I1 as (e & <- & _). cbn [fst snd] in *. lia.
Qed.
Lemma until_unit e es1 es2 : increasing_from 0 (es1 ++ e :: es2) -> tiles_until e (unit_ivs (es1 ++ e :: es2)) = unit_ivs (es1 ++ [e]).
Proof.
  generalize 0. induction es1 as [|x es1 IH]; intros lo H; cbn [unit_ivs map app tiles_until snd].
  - rewrite (proj2 (Z.leb_le e e)) by lia. auto.
  - destruct H as [H1 H2]. assert (x < e).
    { clear - H2. revert x H2. induction es1 as [|y es1 IH]; simpl; intros x H; [tauto|]. destruct H as [H1 H2]. specialize (IH _ H2). lia. }
    destruct (Z.leb_spec e x); [lia|]. f_equal. apply (IH _ H2).
Qed.

Lemma until_prefix lo e es : increasing_from lo es -> exists es1 es2, es = es1 ++ es2 /\ tiles_until e (unit_ivs es) = unit_ivs es1 /\
  filter (fun x => x <=? e) es = filter (fun x => x <=? e) es1 /\ (e <= last_end (unit_ivs es) -> es <> [] -> es1 <> []).
Proof.
  revert lo. induction es as [|x es IH]; intros lo H; [exists [], []; simpl; auto|]. destruct H as [H1 H2]. cbn [unit_ivs map tiles_until snd filter].
  destruct (Z.leb_spec e x).
  - exists [x], es. split; auto. split; auto. split; [|intros; discriminate]. cbn [filter].
    assert (filter (fun y => y <=? e) es = []) as ->; [|destruct (x <=? e); auto].
    clear - H2 H. revert x H H2. induction es as [|y es IH]; simpl; intros x H H2; auto. destruct H2 as [H2 H3]. destruct (Z.leb_spec y e); [lia|]. apply (IH y); auto. lia.
  - destruct (IH _ H2) as (es1 & es2 & -> & Q & F & _). exists (x :: es1), es2. split; auto. change (map (fun e => (e - 1, e)) (es1 ++ es2)) with (unit_ivs (es1 ++ es2)). rewrite Q, F.
    cbn [unit_ivs map filter]. split; auto. split; auto. intros; discriminate.
Qed.

Section State.
Context {E : AEnv} {N : DEnv}.
Variables PS0 D0 Out0 : Type.
Variable dsave0 : D0 -> option PS0 -> dict (list frame) -> Z * Z -> res D0.
Variable dout0 : D0 -> Z -> res Out0.
Local Instance FS2 : SEnv := full dsave0 dout0.

Lemma zset_snoc {A} (l : list A) n x y : 1 <= n -> zset (l ++ zrep n x) (zlen l) y = (l ++ [y]) ++ zrep (n - 1) x.
Proof.
  intros Hn. pose proof (zlen_nonneg l). apply zget_ext. intros j.
  rewrite zget_zset, !zget_app, !zlen_app, zlen_zrep, zlen_cons, (@zlen_nil A), !zget_zrep, zget_cons, zget_nil.
  destruct (Z.eqb_spec j (zlen l)) as [->|].
  - destruct (Z.leb_spec 0 (zlen l)), (Z.ltb_spec (zlen l) (zlen l + Z.max 0 n)); try lia. cbn [andb].
    destruct (Z.ltb_spec (zlen l) (zlen l + (1 + 0))); [|lia]. destruct (Z.ltb_spec (zlen l) (zlen l)); [lia|]. destruct (Z.eqb_spec (zlen l - zlen l) 0); [auto|lia].
  - cbn [andb]. destruct (Z.ltb_spec j (zlen l)), (Z.ltb_spec j (zlen l + (1 + 0))); try lia; auto.
    destruct (Z.leb_spec 0 (j - zlen l)), (Z.ltb_spec (j - zlen l) n), (Z.leb_spec 0 (j - (zlen l + (1 + 0)))), (Z.ltb_spec (j - (zlen l + (1 + 0))) (n - 1)); try lia; auto.
Qed.
Lemma state_saves get dim ds (tl : timeline) (ps : Z -> option PS0) : forall es vs0 ts0 n d', zlen ts0 = zlen vs0 -> 0 <= n ->
  saves ds tl ps (DState (mkStateDiag get dim (map Some vs0 ++ zrep n None) (ts0 ++ zrep n nan_int) (zlen vs0)) : D) (unit_ivs es) = Ok d' ->
  exists vs, Forall2 (fun e v => exists p, ps e = Some p /\ fills dim (get p) v) es vs /\ zlen es <= n /\
    d' = DState (mkStateDiag get dim (map Some (vs0 ++ vs) ++ zrep (n - zlen es) None) ((ts0 ++ map (fun e => e - 1) es) ++ zrep (n - zlen es) nan_int) (zlen vs0 + zlen es)).
Proof.
  induction es as [|e es IH]; intros vs0 ts0 n d' Hl Hn H.
  - cbn in H. inversion H; subst. exists []. split; [constructor|]. rewrite zlen_nil. cbn [map]. rewrite !app_nil_r. replace (n - 0) with n by lia. replace (zlen vs0 + 0) with (zlen vs0) by lia. split; auto.
  - cbn [unit_ivs map saves foldM] in H. apply bind_ok in H as (d1 & H1 & H). cbn [fst snd] in H1.
    cbn in H1. apply bind_ok in H1 as (r & H1 & H2). inversion H2; subst d1; clear H2. unfold state_save in H1. cbn [fst snd st_dim st_get st_idx st_values st_times] in H1.
    apply bind_ok in H1 as (u & Hu & H1). destruct (ps e) as [p|] eqn:Hp; [|discriminate]. apply bind_ok in H1 as (v & Hv & H1). pose proof (zlen_nonneg vs0).
    assert (zlen (map Some vs0) = zlen vs0) as HM by (unfold zlen; rewrite map_length; auto).
    destruct (Z.leb_spec 0 (zlen vs0)); [|lia]. rewrite zlen_app, zlen_zrep, HM in H1. destruct (Z.ltb_spec (zlen vs0) (zlen vs0 + Z.max 0 n)) as [Hz|]; cbn [andb] in H1; [|discriminate]. inversion H1; subst r; clear H1.
    rewrite <- HM in H at 1. rewrite <- Hl in H at 1. rewrite !zset_snoc in H by lia.
    assert (zlen (vs0 ++ [v]) = zlen vs0 + 1) as L1 by (rewrite zlen_app, zlen_cons, zlen_nil; lia).
    assert (map Some vs0 ++ [Some v] = map Some (vs0 ++ [v])) as Q by (rewrite map_app; auto). rewrite Q, <- L1 in H. clear Q.
    apply IH in H as (vs & F & Le & ->); [|rewrite L1, zlen_app, zlen_cons, zlen_nil; lia|lia].
    exists (v :: vs). split; [constructor; auto; exists p; split; auto; apply fit_fills; auto|]. rewrite zlen_cons. split; [lia|].
    replace (n - 1 - zlen es) with (n - (1 + zlen es)) by lia. rewrite L1, <- !app_assoc. cbn [app map]. do 2 f_equal. lia.
Qed.

Lemma instant_saves get ds (tl : timeline) (ps : Z -> option PS0) es e : forall x d',
  saves ds tl ps (DInstant (mkInstantDiag get x) : D) (unit_ivs (es ++ [e])) = Ok d' ->
  exists p, ps e = Some p /\ d' = DInstant (mkInstantDiag get (Some (get p))).
Proof.
  induction es as [|y es IH]; intros x d' H; cbn [unit_ivs map app saves foldM] in H; apply bind_ok in H as (d1 & H1 & H); cbn in H1;
    apply bind_ok in H1 as (r & H1 & H2); inversion H2; subst d1; clear H2; unfold instant_save in H1; cbn [fst snd] in H1.
  - destruct (ps e) as [p|]; [|discriminate]. inversion H1; subst r. cbn in H. inversion H; subst. eauto.
  - destruct (ps y) as [p|]; [|discriminate]. inversion H1; subst r. eapply IH. exact H.
Qed.
End State.

(* ------------------------------------------------------------------ selection of values *)
Section Select.
Context {E : AEnv}.
Lemma stored_pairs_app (vs : list frame) ts n : length vs = length ts -> stored_pairs (map Some vs ++ zrep n None) (ts ++ zrep n nan_int) = combine vs ts.
Proof.
  revert ts. induction vs as [|v vs IH]; intros [|t ts] H; try discriminate; cbn [map app stored_pairs combine].
  - unfold zrep. induction (Z.to_nat n); simpl; auto.
  - f_equal. apply IH. simpl in H. lia.
Qed.
Lemma stored_pairs_eq (cols : columns) times : stored_cols (combine cols times) = stored_pairs cols times.
Proof.
  revert times; induction cols as [|[v|] cols IH]; intros [|t times]; auto; cbn [combine stored_pairs]; unfold stored_cols in *; cbn [flat_map fst snd app]; rewrite IH; auto.
Qed.
Lemma first_ge_spec m l : increasing l ->
  match first_ge m l with
  | Some k => 0 <= k < zlen l /\ filter (fun t => t <? m) l = firstn (Z.to_nat k) l
  | None => filter (fun t => t <? m) l = l
  end.
Proof.
  induction 1 as [|x l H IH F]; cbn [first_ge filter]; auto. rewrite zlen_cons. pose proof (zlen_nonneg l).
  destruct (Z.leb_spec m x), (Z.ltb_spec x m); try lia.
  - split; [lia|]. change (Z.to_nat 0) with 0%nat. cbn [firstn]. clear IH. rewrite Forall_forall in F.
    destruct (filter (fun t => t <? m) l) as [|y r] eqn:Q; auto. assert (In y (filter (fun t => t <? m) l)) by (rewrite Q; simpl; auto).
    apply filter_In in H3 as [H3 H4]. specialize (F _ H3). lia.
  - destruct (first_ge m l) as [k|]; [|congruence]. destruct IH as [IH1 IH2]. split; [lia|]. rewrite IH2. replace (Z.to_nat (k + 1)) with (S (Z.to_nat k)) by lia. auto.
Qed.
Lemma filter_firstn_pairs (l : list (frame * Z)) m n : filter (fun t => t <? m) (map snd l) = firstn n (map snd l) -> increasing (map snd l) ->
  filter (fun vt => snd vt <? m) l = firstn n l.
Proof.
  revert n. induction l as [|[v t] l IH]; intros n H HI; cbn [map snd filter firstn] in *; [destruct n; auto|]. inversion HI as [|? ? I1 I2]; subst.
  destruct n as [|n]; cbn [firstn] in *.
  - destruct (Z.ltb_spec t m); [discriminate|]. change (@nil (frame * Z)) with (firstn 0 l). apply IH; auto.
  - destruct (Z.ltb_spec t m); [inversion H; f_equal; auto|]. exfalso.
    assert (In t (filter (fun t => t <? m) (map snd l))) by (rewrite H; simpl; auto). apply filter_In in H1. lia.
Qed.
Lemma pyslice_firstn {A} (l : list A) k : 0 <= k <= zlen l -> pyslice l 0 k = firstn (Z.to_nat k) l.
Proof.
  intros Hk. apply zget_ext. intros j. rewrite zget_pyslice_in by lia. replace (0 + j) with j by lia. rewrite zget_firstn.
  replace (Z.of_nat (Z.to_nat k)) with k by lia. replace (k - 0) with k by lia. destruct (Z.leb_spec 0 j); cbn [andb]; auto. rewrite zget_neg by lia. destruct (j <? k); auto.
Qed.
End Select.
