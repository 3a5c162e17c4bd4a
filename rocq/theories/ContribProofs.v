(** Recording source contributions does not influence the other signals: the reference simulator with and without them. *)
Require Import Verif.PyBase Verif.PyLemmas Verif.ConfigModel Verif.ArrayModel Verif.ArraySpec Verif.ArrayProofs Verif.ArrayPaths Verif.LoggerModel
  Verif.SimModel Verif.SimSpec Verif.SimRefine Verif.SimRun Verif.SimDiag Verif.SimLoop Verif.SignalSpec Verif.SignalPass Verif.SignalRun Verif.SignalInv Verif.SignalStart Verif.SizeProofs.
Set Implicit Arguments.
Arguments Z.add : simpl never.
Arguments Z.sub : simpl never.
Arguments Z.mul : simpl never.

(** whenever the first succeeds so does the second, with a related result *)
Definition follows {A B} (R : A -> B -> Prop) (x : res A) (y : res B) : Prop := forall a, x = Ok a -> exists b, y = Ok b /\ R a b.
Lemma follows_bind {A B A' B'} (R : A -> A' -> Prop) (Q : B -> B' -> Prop) x x' f f' :
  follows R x x' -> (forall a a', x = Ok a -> R a a' -> follows Q (f a) (f' a')) -> follows Q (bind x f) (bind x' f').
Proof. intros H K b Hb. apply bind_ok in Hb as (a & Ha & Hb). destruct (H _ Ha) as (a' & -> & Ha'). simpl. eapply K; eauto. Qed.
Lemma follows_same {A B B'} (Q : B -> B' -> Prop) (x : res A) f f' :
  (forall a, x = Ok a -> follows Q (f a) (f' a)) -> follows Q (bind x f) (bind x f').
Proof. intros K b Hb. apply bind_ok in Hb as (a & Ha & Hb). rewrite Ha. simpl. eapply K; eauto. Qed.
Lemma follows_fold {A A' B} (R : A -> A' -> Prop) (f : A -> B -> res A) (f' : A' -> B -> res A') l :
  (forall a a' x, In x l -> R a a' -> follows R (f a x) (f' a' x)) -> forall a a', R a a' -> follows R (foldM f a l) (foldM f' a' l).
Proof.
  induction l as [|x l IH]; intros H a a' Ha; simpl; [intros b Hb; inversion Hb; subst; eauto|].
  eapply follows_bind; [apply H; simpl; auto|]. intros b b' _ Hb. apply IH; auto. intros; apply H; simpl; auto.
Qed.
Lemma follows_ok {A B} (R : A -> B -> Prop) a b : R a b -> follows R (Ok a) (Ok b).
Proof. intros H x Hx. inversion Hx; subst. eauto. Qed.

Section OnOff.
Context {E : AEnv} {S : SEnv}.
(** the signals that are there in any case *)
Variable X : string -> Prop.
Variables ds ds' : dims.
Hypothesis HDS : forall nm, X nm -> dget ds nm = dget ds' nm.
Definition agree (tl tl' : @timeline E) : Prop := forall nm, X nm -> forall u, tl nm u = tl' nm u.
(** a processor that does not look at the other signals and does not write to them *)
Definition blind (p : @proc E S) : Prop :=
  (forall s w w', (forall nm, X nm -> dget w nm = dget w' nm) -> pr_step p s w = pr_step p s w') /\
  (forall s w nm xs, In (nm, xs) (snd (pr_step p s w)) -> X nm).
Notation sw := (switch_coll false).

Lemma write_follows tl tl' nm t n new : X nm -> agree tl tl' -> follows agree (tl_write ds tl nm t n new) (tl_write ds' tl' nm t n new).
Proof.
  intros HX H. unfold tl_write, dgetE. rewrite (HDS HX). apply follows_same. intros d _. apply follows_same. intros l _. apply follows_same. intros l' _.
  apply follows_ok. intros k Hk u. destruct (_ =? _)%string; auto. destruct (zget _ _); auto.
Qed.
Lemma write_other tl tl' nm t n new tl1 : ~ X nm -> agree tl tl' -> tl_write ds tl nm t n new = Ok tl1 -> agree tl1 tl'.
Proof.
  intros HX H K. unfold tl_write in K. apply bind_ok in K as (? & _ & K). apply bind_ok in K as (? & _ & K). apply bind_ok in K as (? & _ & K). inversion K; subst.
  intros k Hk u. destruct (String.eqb_spec k nm); [congruence|auto].
Qed.
Lemma add_follows tl tl' nm t y : X nm -> agree tl tl' -> follows agree (tl_add ds tl nm t y) (tl_add ds' tl' nm t y).
Proof.
  intros HX H. unfold tl_add, dgetE. rewrite (HDS HX), (H _ HX t). apply follows_same. intros d _. apply follows_same. intros z _.
  apply follows_ok. intros k Hk u. destruct (_ && _); auto.
Qed.
Definition rel_free (x y : coll E * timeline) : Prop := fst y = sw (fst x) /\ agree (snd x) (snd y).
Lemma free_follows t n x y k : X k -> rel_free x y -> follows rel_free (ref_free ds t n x k) (ref_free ds' t n y k).
Proof.
  destruct x as [c tl], y as [c' tl']. intros HX [E1 E2]. cbn [fst snd] in *. subst c'. unfold ref_free. cbn [c_arrays switch_coll retune_coll]. apply follows_same. intros a _.
  destruct (a_source a); [|intros ? Q; discriminate Q]. destruct (src_get _ _) as [src xs]. eapply follows_bind; [apply write_follows; eauto|]. intros u v _ Huv. apply follows_ok. split; auto.
Qed.
Definition rel_flt (x y : dict (dict fir) * timeline) : Prop := fst y = fst x /\ agree (snd x) (snd y).
Definition good_pair (sm : arr Pos Src * arr Pos Src) : Prop := X (a_name (fst sm)) /\ X (a_name (snd sm)) /\ ~ X (contrib (a_name (fst sm)) (a_name (snd sm))).
Lemma contribution_follows tl tl' nm t n (y : list frame) : ~ X nm -> agree tl tl' -> follows agree (tl_write ds tl nm t n y) (Ok tl').
Proof. intros H A tl1 Q. exists tl'. split; auto. exact (@write_other _ _ _ _ _ _ _ H A Q). Qed.
Lemma pair_follows t x y sm : good_pair sm -> rel_flt x y -> follows rel_flt (ref_pair true ds t x sm) (ref_pair false ds' t y sm).
Proof.
  destruct x as [fl tl], y as [fl' tl']. intros (X1 & X2 & X3) [E1 E2]. cbn [fst snd] in *. subst fl'. unfold ref_pair, dgetE. rewrite (HDS X1), (E2 _ X1 t).
  apply follows_same. intros f _. apply follows_same. intros d _. destruct (fir_step _ _) as [f' z]. apply follows_same. intros fl' _.
  eapply follows_bind; [apply add_follows; eauto|]. intros a b _ Hab. eapply follows_bind; [apply contribution_follows; eauto|]. intros u v _ Huv. apply follows_ok. split; auto.
Qed.
Lemma pair0_follows x y sm : good_pair sm -> rel_flt x y -> follows rel_flt (ref_pair_at_0 true ds x sm) (ref_pair_at_0 false ds' y sm).
Proof.
  destruct x as [fl tl], y as [fl' tl']. intros (X1 & X2 & X3) [E1 E2]. cbn [fst snd] in *. subst fl'. unfold ref_pair_at_0, dgetE. rewrite (HDS X1), (HDS X2), (E2 _ X1 0), (E2 _ X2 0).
  apply follows_same. intros f _. apply follows_same. intros d _. destruct (fir_step _ _) as [f' z]. apply follows_same. intros fl' _.
  apply follows_same. intros d' _. apply follows_same. intros z' _.
  eapply follows_bind; [apply contribution_follows; eauto|intros u v _ Huv; apply follows_ok; split; [reflexivity|exact Huv]].
  intros k Hk u. rewrite (E2 _ Hk u). destruct (_ && _); auto.
Qed.
Lemma pair_early_follows n x y sm : good_pair sm -> rel_flt x y -> follows rel_flt (ref_pair_early true ds n x sm) (ref_pair_early false ds' n y sm).
Proof.
  destruct x as [fl tl], y as [fl' tl']. intros (X1 & X2 & X3) [E1 E2]. cbn [fst snd] in *. subst fl'. unfold ref_pair_early, dgetE. rewrite (HDS X1), (HDS X2).
  rewrite (map_ext _ _ (E2 _ X1)), (map_ext _ _ (E2 _ X2)).
  apply follows_same. intros f _. apply follows_same. intros d _. destruct (fir_process _ _) as [f' z]. apply follows_same. intros fl' _.
  apply follows_same. intros d' _. apply follows_same. intros z' _.
  eapply follows_bind; [apply contribution_follows; eauto|intros u v _ Huv; apply follows_ok; split; [reflexivity|exact Huv]].
  intros k Hk u. destruct (_ =? _)%string; auto. destruct (zget _ _); auto.
Qed.
Lemma window_agree tl tl' a b nm : agree tl tl' -> X nm -> dget (window ds tl a b) nm = dget (window ds' tl' a b) nm.
Proof.
  intros H HX. assert (forall (d : dims) (f : timeline), dget (window d f a b) nm = option_map (fun _ => map (f nm) (zrange a b)) (dget d nm)) as K.
  { intros d f. unfold window. induction d as [|[k v] d IH]; simpl; auto. destruct (String.eqb_spec nm k) as [<-|]; auto. }
  rewrite !K, (HDS HX), (map_ext _ _ (H _ HX)). auto.
Qed.
Definition rel_proc (x y : list (@proc E S) * timeline) : Prop := fst y = fst x /\ agree (snd x) (snd y).
Lemma procs_follow t x y p : blind p -> rel_proc x y -> follows rel_proc (ref_procs ds t x p) (ref_procs ds' t y p).
Proof.
  destruct x as [ps tl], y as [ps' tl']. intros [B1 B2] [E1 E2]. cbn [fst snd] in *. subst ps'. unfold ref_procs. destruct (_ =? 0); [intros ? Q; discriminate Q|].
  destruct (_ =? 0); [|apply follows_ok; split; auto]. unfold ref_process.
  rewrite (B1 (pr_state p) (window ds tl (t - pr_hist p) t) (window ds' tl' (t - pr_hist p) t)) by (intros; apply window_agree; auto).
  destruct (pr_step p (pr_state p) _) as [s' outs] eqn:Q. eapply follows_bind with (R := fun a b => fst b = fst a /\ agree (snd a) (snd b)).
  - eapply follows_bind.
    + apply (@follows_fold _ _ _ agree); [|exact E2]. intros u v [nm xs] Hin Huv. apply write_follows; auto. eapply B2. rewrite Q. exact Hin.
    + intros u v _ Huv. apply follows_ok. split; auto.
  - intros [a1 a2] [b1 b2] _ [F1 F2]. cbn [fst snd] in *. subst b1. apply follows_ok. split; auto.
Qed.
Definition rel_ref (r r' : @ref E S) : Prop := r_coll r' = sw (r_coll r) /\ agree (r_tl r) (r_tl r') /\ r_flt r' = r_flt r /\ r_procs r' = r_procs r.
Lemma frees_free t n l : forall x y, foldM (ref_free ds t n) x l = Ok y -> c_free (fst y) = c_free (fst x).
Proof.
  induction l as [|k l IH]; simpl; intros x y H; [inversion H; auto|]. apply bind_ok in H as (z & Hz & H). apply IH in H. rewrite H. destruct x as [c tl]. unfold ref_free in Hz.
  apply bind_ok in Hz as (a & _ & Hz). destruct (a_source a); [|discriminate]. destruct (src_get _ _). apply bind_ok in Hz as (tl' & _ & Hz). inversion Hz; auto.
Qed.
(** what is needed of the arrays: names of arrays are not names of contributions *)
Definition named (c : coll E) : Prop := (forall k, In k (c_free c) -> X k) /\ (forall cs, mic_src_combos c = Ok cs -> Forall good_pair cs).
Lemma step_follows g r r' r1 : Forall blind (r_procs r) -> rel_ref r r' -> ref_step true ds g r = Ok r1 -> named (r_coll r1) ->
  exists r1', ref_step false ds' g r' = Ok r1' /\ rel_ref r1 r1'.
Proof.
  intros HB (A1 & A2 & A3 & A4) H [N1 N2]. cut (follows rel_ref (ref_step true ds g r) (ref_step false ds' g r')); [intros K; exact (K _ H)|].
  revert H. unfold ref_step. rewrite A1, A3, A4. intros H.
  apply bind_ok in H as (c1 & H1 & H). apply bind_ok in H as ([ps tl1] & H2 & H). apply bind_ok in H as ([c2 tl2] & H3 & H).
  apply bind_ok in H as (cs & H4 & H). apply bind_ok in H as (fl & H5 & H). apply bind_ok in H as ([fl2 tl3] & H6 & H). inversion H; subst r1; clear H. cbn [r_coll] in *.
  pose proof (frees_free _ _ _ _ H3) as F. cbn [fst] in F. rewrite F in N1.
  eapply follows_bind with (R := fun c c' => c' = sw c).
  { intros c Hc. pose proof (update_resize (fun T => T) (fun B => B) (fun C => C) (fun _ => false) (r_coll r) g) as K. rewrite Hc in K. apply res_rel_ok_r in K as (c' & K & Q). exists c'. split; auto. }
  intros c c' Hc ->. rewrite H1 in Hc. inversion Hc; subst c; clear Hc.
  eapply follows_bind with (R := rel_proc).
  { apply follows_fold; [|split; auto]. intros x y p Hp. apply procs_follow. rewrite Forall_forall in HB. auto. }
  intros x y Hx Hxy. rewrite H2 in Hx. inversion Hx; subst x; clear Hx. destruct y as [ps' tl']. destruct Hxy as [E1 E2]. cbn [fst snd] in E1, E2. subst ps'.
  change (c_free (sw c1)) with (c_free c1).
  eapply follows_bind with (R := rel_free).
  { apply follows_fold; [|split; auto]. intros x y k Hk. apply free_follows. auto. }
  intros x y Hx Hxy. rewrite H3 in Hx. inversion Hx; subst x; clear Hx. destruct y as [c' tl'']. destruct Hxy as [E3 E4]. cbn [fst snd] in E3, E4. subst c'.
  change (mic_src_combos (sw c2)) with (mic_src_combos c2). apply follows_same. intros cs' Hcs. rewrite H4 in Hcs. inversion Hcs; subst cs'; clear Hcs.
  change (refresh_pair (sw c2)) with (refresh_pair c2). apply follows_same. intros fl' _.
  eapply follows_bind with (R := rel_flt).
  { apply follows_fold; [|split; auto]. intros x y k Hk. apply pair_follows. apply N2 in H4. rewrite Forall_forall in H4. auto. }
  intros x y _ [E5 E6]. apply follows_ok. repeat split; auto.
Qed.
Lemma blind_step g r r1 : ref_step true ds g r = Ok r1 -> Forall blind (r_procs r) -> Forall blind (r_procs r1).
Proof.
  unfold ref_step. intros H HF. apply bind_ok in H as (c & _ & H). apply bind_ok in H as ([ps tl] & H1 & H). apply bind_ok in H as ([c2 tl2] & _ & H).
  apply bind_ok in H as (cs & _ & H). apply bind_ok in H as (fl & _ & H). apply bind_ok in H as (ft & _ & H). inversion H; subst; clear H. cbn [r_procs].
  assert (K : forall l acc x, foldM (ref_procs ds (g + 1)) acc l = Ok x -> Forall blind l -> Forall blind (fst acc) -> Forall blind (fst x)).
  { induction l as [|p l IH]; cbn [foldM]; intros [a tl0] x Hx Hl Ha; [inversion Hx; auto|]. apply bind_ok in Hx as (y & Hy & Hx). inversion Hl as [|? ? Bp Bl]; subst. apply IH in Hx; auto.
    unfold ref_procs in Hy. destruct (_ =? 0); [discriminate|]. destruct (_ =? 0); [|inversion Hy; subst; cbn [fst]; apply Forall_app; auto].
    apply bind_ok in Hy as ([q tq] & Hq & Hy). inversion Hy; subst; clear Hy. cbn [fst] in *. apply Forall_app. split; auto. constructor; auto.
    unfold ref_process in Hq. destruct (pr_step p (pr_state p) _). apply bind_ok in Hq as (? & _ & Hq). inversion Hq; subst. exact Bp. }
  apply (K _ _ _ H1 HF). constructor.
Qed.
Lemma steps_follow r0 r0' : Forall blind (r_procs r0) -> rel_ref r0 r0' -> forall n,
  (forall k r, (k <= n)%nat -> ref_steps true ds k r0 = Ok r -> named (r_coll r)) ->
  follows (fun r r' => Forall blind (r_procs r) /\ rel_ref r r') (ref_steps true ds n r0) (ref_steps false ds' n r0').
Proof.
  intros HB H0. induction n as [|n IH]; intros HN; cbn [ref_steps]; [apply follows_ok; auto|]. intros r2 H. pose proof H as HH. apply bind_ok in H as (r1 & H1 & H2).
  destruct (IH ltac:(intros; eapply HN; [|eauto]; lia) _ H1) as (r1' & K1 & K2 & K3). rewrite K1. cbn [bind].
  destruct (@step_follows _ _ _ _ K2 K3 H2) as (r2' & L1 & L2); [eapply HN; [apply le_n|]; exact HH|]. exists r2'. split; auto. split; auto. eapply blind_step; eauto.
Qed.
Lemma silence_agree : agree (silence ds) (silence ds').
Proof. intros nm H u. unfold silence. rewrite (HDS H). auto. Qed.
Lemma prepare_follows early c procs r0 : ref_prepare true early ds c procs = Ok r0 -> named (r_coll r0) ->
  exists r0', ref_prepare false early ds' (sw c) procs = Ok r0' /\ rel_ref r0 r0'.
Proof.
  intros H [N1 N2]. cut (follows rel_ref (ref_prepare true early ds c procs) (ref_prepare false early ds' (sw c) procs)); [intros K; exact (K _ H)|].
  revert H. unfold ref_prepare. intros H. apply bind_ok in H as (fl & H1 & H).
  change (filters_init (sw c)) with (filters_init c). rewrite H1. cbn [bind]. change (c_free (sw c)) with (c_free c). destruct early as [n|].
  - apply bind_ok in H as ([c2 tl2] & H3 & H). apply bind_ok in H as (cs & H4 & H). apply bind_ok in H as ([fl2 tl3] & H6 & H). inversion H; subst r0; clear H. cbn [r_coll] in *.
    pose proof (frees_free _ _ _ _ H3) as F. cbn [fst] in F. rewrite F in N1.
    eapply follows_bind with (R := rel_free).
    { apply follows_fold; [|split; [auto|apply silence_agree]]. intros x y k Hk. apply free_follows. auto. }
    intros x y Hx Hxy. rewrite H3 in Hx. inversion Hx; subst x; clear Hx. destruct y as [c' tl'']. destruct Hxy as [E3 E4]. cbn [fst snd] in E3, E4. subst c'.
    change (mic_src_combos (sw c2)) with (mic_src_combos c2). apply follows_same. intros cs' Hcs. rewrite H4 in Hcs. inversion Hcs; subst cs'; clear Hcs.
    eapply follows_bind with (R := rel_flt).
    { apply follows_fold; [|split; auto]. intros x y k Hk. apply pair_early_follows. apply N2 in H4. rewrite Forall_forall in H4. auto. }
    intros x y _ [E5 E6]. apply follows_ok. repeat split; auto.
  - apply bind_ok in H as ([c2 tl2] & H3 & H). apply bind_ok in H as (cs & H4 & H). apply bind_ok in H as ([fl2 tl3] & H6 & H). inversion H; subst r0; clear H. cbn [r_coll] in *.
    pose proof (frees_free _ _ _ _ H3) as F. cbn [fst] in F. rewrite F in N1.
    eapply follows_bind with (R := rel_free).
    { apply follows_fold; [|split; [auto|apply silence_agree]]. intros x y k Hk. apply free_follows. auto. }
    intros x y Hx Hxy. rewrite H3 in Hx. inversion Hx; subst x; clear Hx. destruct y as [c' tl'']. destruct Hxy as [E3 E4]. cbn [fst snd] in E3, E4. subst c'.
    change (mic_src_combos (sw c2)) with (mic_src_combos c2). apply follows_same. intros cs' Hcs. rewrite H4 in Hcs. inversion Hcs; subst cs'; clear Hcs.
    eapply follows_bind with (R := rel_flt).
    { apply follows_fold; [|split; auto]. intros x y k Hk. apply pair0_follows. apply N2 in H4. rewrite Forall_forall in H4. auto. }
    intros x y _ [E5 E6]. apply follows_ok. repeat split; auto.
Qed.
End OnOff.
