(** Lemmas about array collections. *)
Require Import Verif.PyBase Verif.PyLemmas Verif.ConfigModel Verif.ArrayModel Verif.ArraySpec.
From Coq Require Import Permutation.
Set Implicit Arguments.

Section Dict2.
Context {A : Type}.
Implicit Types d : dict (dict A).

Lemma dget2E_lookup2 d s m x : dget2E d s m = Ok x <-> lookup2 d s m = Some x.
Proof.
  unfold dget2E, lookup2, dgetE, bind. destruct (dget d s) as [y|]; [|split; discriminate].
  destruct (dget y m); split; congruence.
Qed.
Lemma dset2_ok d s m x d' : dset2 d s m x = Ok d' ->
  (exists y, dget d s = Some y) /\
  (forall s' m', lookup2 d' s' m' = if String.eqb s' s && String.eqb m' m then Some x else lookup2 d s' m') /\
  (forall s', (exists y, dget d s' = Some y) -> exists y, dget d' s' = Some y) /\
  dkeys d' = dkeys d.
Proof.
  unfold dset2, dgetE, bind. destruct (dget d s) as [y|] eqn:Q; [|discriminate]. intros H; inversion H; subst; clear H.
  split; [eauto|]. split; [|split].
  - intros s' m'. unfold lookup2. rewrite dget_dset.
    destruct (String.eqb_spec s' s); simpl; [subst|auto]. rewrite dget_dset, Q.
    destruct (String.eqb m' m); auto.
  - intros s' [z Hz]. rewrite dget_dset. destruct (String.eqb s' s); eauto.
  - eapply dkeys_dset_mem; eauto.
Qed.
Lemma dset2_total d s m x : (exists y, dget d s = Some y) -> exists d', dset2 d s m x = Ok d'.
Proof. intros [y Hy]. unfold dset2, dgetE; rewrite Hy; simpl; eauto. Qed.
Lemma dset_id (d : dict A) k x : dget d k = Some x -> dset d k x = d.
Proof.
  induction d as [|[k' v'] r IH]; simpl; [discriminate|].
  destruct (String.eqb_spec k k'); [intros H; inversion H; subst; auto|intros; f_equal; auto].
Qed.
End Dict2.
Lemma dset2_id {A} (d : dict (dict A)) s m x : lookup2 d s m = Some x -> dset2 d s m x = Ok d.
Proof.
  unfold lookup2, dset2, dgetE. destruct (dget d s) as [y|] eqn:Q; [|discriminate]. simpl. intros H.
  rewrite (dset_id y m H). rewrite (dset_id d s Q). auto.
Qed.

Lemma mapM_ok {A B} (f : A -> res B) (g : A -> B) l : (forall x, In x l -> f x = Ok (g x)) -> mapM f l = Ok (map g l).
Proof.
  induction l as [|x l IH]; simpl; intros H; auto. rewrite H by auto. simpl. rewrite IH by auto. auto.
Qed.
Lemma mapM_inv {A B} (f : A -> res B) l l' : mapM f l = Ok l' -> Forall2 (fun x y => f x = Ok y) l l'.
Proof.
  revert l'; induction l as [|x l IH]; simpl; intros l' H; [inversion H; constructor|].
  apply bind_ok in H as (y & H1 & H). apply bind_ok in H as (ys & H2 & H). inversion H; subst. constructor; auto.
Qed.

Lemma NoDup_app_intro {A} (l r : list A) : NoDup l -> NoDup r -> (forall x, In x l -> In x r -> False) -> NoDup (l ++ r).
Proof.
  induction 1 as [|x l Hx HL IH]; simpl; intros HR HD; auto. constructor.
  - rewrite in_app_iff; intros [H|H]; [auto|eapply HD; eauto].
  - apply IH; auto. intros; eapply HD; eauto.
Qed.
Lemma NoDup_map_inj {A B} (f : A -> B) l : (forall x y, In x l -> In y l -> f x = f y -> x = y) -> NoDup l -> NoDup (map f l).
Proof.
  induction l as [|x l IH]; simpl; intros Hi HN; [constructor|]. inversion HN; subst. constructor.
  - intros H. apply in_map_iff in H as (y & Ey & Hy). assert (y = x) by (apply Hi; auto). subst; auto.
  - apply IH; auto.
Qed.
Lemma NoDup_list_prod {A B} (l : list A) (r : list B) : NoDup l -> NoDup r -> NoDup (list_prod l r).
Proof.
  intros HL HR; induction HL as [|x l Hx HL IH]; simpl; [constructor|].
  apply NoDup_app_intro; auto.
  - apply NoDup_map_inj; auto. intros; congruence.
  - intros [a b] H1 H2. apply in_map_iff in H1 as (y & Ey & Hy). inversion Ey; subst.
    apply in_prod_iff in H2 as [H2 _]; auto.
Qed.
Lemma NoDup_filter_fst {A} (f : string * A -> bool) (d : dict A) : NoDup (dkeys d) -> NoDup (map fst (filter f d)).
Proof.
  induction d as [|[k x] d IH]; simpl; intros HN; [constructor|]. inversion HN; subst.
  destruct (f (k, x)); simpl; auto. constructor; auto.
  intros H. apply H1. apply in_map_iff in H as ([k' y] & Ek & Hy). apply filter_In in Hy as [Hy _].
  simpl in Ek; subst. change k with (fst (k, y)). apply in_map; auto.
Qed.
Lemma In_names_filter {A} (f : A -> bool) (d : dict A) k : NoDup (dkeys d) ->
  In k (map fst (filter (fun kv => f (snd kv)) d)) <-> exists a, dget d k = Some a /\ f a = true.
Proof.
  intros HN. rewrite in_map_iff. split.
  - intros ([k' a] & Ek & H). apply filter_In in H as [H1 H2]. simpl in *; subst. exists a; split; auto. apply In_dget; auto.
  - intros (a & H1 & H2). exists (k, a); split; auto. apply filter_In; split; auto. apply dget_In; auto.
Qed.

Section Coll.
Context {E : AEnv}.
Notation arr := (arr Pos Src).

Lemma mic_names (c : coll E) k : coll_ok c -> In k (c_mic c) <-> exists a, the_array c k a /\ is_mic a = true.
Proof. intros O. rewrite (ok_mic O). apply In_names_filter, (ok_names O). Qed.
Lemma src_names (c : coll E) k : coll_ok c -> In k (c_src c) <-> exists a, the_array c k a /\ is_source a = true.
Proof. intros O. rewrite (ok_src O). apply In_names_filter, (ok_names O). Qed.
Lemma free_names (c : coll E) k : coll_ok c -> In k (c_free c) <-> exists a, the_array c k a /\ is_free a = true.
Proof. intros O. rewrite (ok_free O). apply In_names_filter, (ok_names O). Qed.
Lemma NoDup_mic (c : coll E) : coll_ok c -> NoDup (c_mic c).
Proof. intros O. rewrite (ok_mic O). apply NoDup_filter_fst, (ok_names O). Qed.
Lemma NoDup_src (c : coll E) : coll_ok c -> NoDup (c_src c).
Proof. intros O. rewrite (ok_src O). apply NoDup_filter_fst, (ok_names O). Qed.
Lemma NoDup_free (c : coll E) : coll_ok c -> NoDup (c_free c).
Proof. intros O. rewrite (ok_free O). apply NoDup_filter_fst, (ok_names O). Qed.
Lemma mic_not_src (c : coll E) k : coll_ok c -> In k (c_mic c) -> In k (c_src c) -> False.
Proof.
  intros O H1 H2. apply mic_names in H1 as (a & A1 & M); auto. apply src_names in H2 as (b & B1 & S); auto.
  unfold the_array in *. assert (a = b) by congruence. subst. unfold is_mic, is_source in *. destruct (a_kind b); discriminate.
Qed.
Lemma free_is_src (c : coll E) k : coll_ok c -> In k (c_free c) -> In k (c_src c).
Proof.
  intros O H. apply free_names in H as (a & A1 & M); auto. apply src_names; auto. exists a; split; auto.
  unfold is_free, is_source in *. destruct (a_kind a); auto; discriminate.
Qed.

(* -------------------------------------------------------------- building *)
Lemma empty_coll_ok g : coll_ok (empty_coll g).
Proof. split; simpl; try tauto; try constructor; try discriminate; auto. Qed.

Lemma filter_snoc {A} (f : A -> bool) l x : filter f (l ++ [x]) = filter f l ++ (if f x then [x] else []).
Proof. rewrite filter_app; simpl; destruct (f x); auto. Qed.

Lemma add_array_ok (c : coll E) a c' u : coll_ok c -> add_array c a = (c', Ok u) ->
  coll_ok c' /\ dget (c_arrays c) (a_name a) = None /\ c_arrays c' = c_arrays c ++ [(a_name a, a)] /\
  (is_mic a || is_source a = true) /\
  c_mic c' = c_mic c ++ (if is_mic a then [a_name a] else []) /\
  c_src c' = c_src c ++ (if is_source a then [a_name a] else []) /\
  c_free c' = c_free c ++ (if is_free a then [a_name a] else []) /\
  c_info c' = c_info c /\ c_rng c' = c_rng c /\
  (forall s m, s <> a_name a -> lookup2 (c_paths c') s m = lookup2 (c_paths c) s m) /\
  (forall s m, s <> a_name a -> lookup2 (c_ptypes c') s m = lookup2 (c_ptypes c) s m) /\
  (is_source a = true -> forall m, lookup2 (c_paths c') (a_name a) m = None /\ lookup2 (c_ptypes c') (a_name a) m = None).
Proof.
  intros O. unfold add_array, dmem. destruct (dget (c_arrays c) (a_name a)) eqn:Q; [discriminate|].
  assert (HA : dset (c_arrays c) (a_name a) a = c_arrays c ++ [(a_name a, a)]) by (apply dset_new; auto).
  assert (HND : NoDup (dkeys (c_arrays c ++ [(a_name a, a)]))).
  { unfold dkeys. rewrite map_app. simpl. apply NoDup_app_intro; [apply (ok_names O)|repeat constructor; auto|].
    intros x Hx [<-|[]]. apply dget_None in Q; auto. }
  assert (HK : forall k b, dget (c_arrays c ++ [(a_name a, a)]) k = Some b -> a_name b = k).
  { intros k b. rewrite <- HA, dget_dset. destruct (String.eqb_spec k (a_name a)); [congruence|apply (ok_key O)]. }
  destruct (is_mic a) eqn:Hm.
  - intros H; inversion H; subst; clear H. rewrite HA.
    assert (Hs : is_source a = false) by (unfold is_mic, is_source in *; destruct (a_kind a); auto; discriminate).
    assert (Hf : is_free a = false) by (unfold is_mic, is_free in *; destruct (a_kind a); auto; discriminate).
    rewrite Hs, Hf, !app_nil_r. simpl. repeat split; auto; simpl; try discriminate.
    + rewrite filter_snoc, map_app; simpl. rewrite Hm, (ok_mic O); auto.
    + rewrite filter_snoc, map_app; simpl. rewrite Hs, (ok_src O); simpl; rewrite app_nil_r; auto.
    + rewrite filter_snoc, map_app; simpl. rewrite Hf, (ok_free O); simpl; rewrite app_nil_r; auto.
    + apply (ok_paths O).
    + apply (ok_types O).
  - destruct (is_source a) eqn:Hs; [|discriminate].
    intros H; inversion H; subst; clear H. rewrite HA. rewrite !app_nil_r.
    assert (HL : forall (X : Type) (d : dict (dict X)) s m, s <> a_name a -> lookup2 (dset d (a_name a) []) s m = lookup2 d s m).
    { intros X d s m Hne. unfold lookup2. rewrite dget_dset_other; auto. }
    assert (HL0 : forall (X : Type) (d : dict (dict X)) m, lookup2 (dset d (a_name a) []) (a_name a) m = None).
    { intros X d m. unfold lookup2. rewrite dget_dset_same; auto. }
    simpl. repeat split; auto; simpl.
    + rewrite filter_snoc, map_app; simpl. rewrite Hm, (ok_mic O); simpl; rewrite app_nil_r; auto.
    + rewrite filter_snoc, map_app; simpl. rewrite Hs, (ok_src O); simpl; auto.
    + rewrite filter_snoc, map_app; simpl. rewrite (ok_free O). destruct (is_free a); simpl; auto; rewrite app_nil_r; auto.
    + intros s Hin. rewrite dget_dset. destruct (String.eqb_spec s (a_name a)); eauto.
      apply in_app_iff in Hin as [Hin|[Hin|[]]]; [|congruence]. apply (ok_paths O); auto.
    + intros s Hin. rewrite dget_dset. destruct (String.eqb_spec s (a_name a)); eauto.
      apply in_app_iff in Hin as [Hin|[Hin|[]]]; [|congruence]. apply (ok_types O); auto.
    + destruct (is_free a); simpl; auto. rewrite app_nil_r; auto.
Qed.

Lemma add_array_err (c : coll E) a c' e : add_array c a = (c', Err e) ->
  (dget (c_arrays c) (a_name a) <> None /\ c' = c /\ e = AssertionError) \/
  (dget (c_arrays c) (a_name a) = None /\ a_kind a = KOther /\ e = ValueError /\ the_array c' (a_name a) a).
Proof.
  unfold add_array, dmem, the_array. destruct (dget (c_arrays c) (a_name a)) eqn:Q; [intros H; inversion H; subst; left; repeat split; auto; discriminate|].
  destruct (is_mic a) eqn:Hm; [discriminate|]. destruct (is_source a) eqn:Hs; [discriminate|].
  intros H; inversion H; subst; right. repeat split; auto.
  - unfold is_mic, is_source in *. destruct (a_kind a); auto; discriminate.
  - simpl. apply dget_dset_same.
Qed.

Lemma add_all_ok l : forall c c', coll_ok c -> add_all c l = Ok c' ->
  coll_ok c' /\ c_arrays c' = c_arrays c ++ map (fun a => (a_name a, a)) l /\
  Forall (fun a => is_mic a || is_source a = true) l.
Proof.
  unfold add_all. induction l as [|a l IH]; simpl; intros c c' O H.
  - inversion H; subst. rewrite app_nil_r; auto.
  - apply bind_ok in H as (c1 & H1 & H). destruct (add_array c a) as [c2 [u|e]] eqn:Q; inversion H1; subst; clear H1.
    destruct (add_array_ok a O Q) as (O1 & _ & A1 & K1 & _). destruct (IH _ _ O1 H) as (O2 & A2 & K2).
    split; [auto|]. split; [|constructor; auto]. rewrite A2, A1, <- app_assoc; auto.
Qed.

(* -------------------------------------------------------------- lookups *)
Lemma lookup_names (c : coll E) (f : arr -> bool) : NoDup (dkeys (c_arrays c)) ->
  lookup_all c (map fst (filter (fun kv => f (snd kv)) (c_arrays c))) = Ok (filter f (map snd (c_arrays c))).
Proof.
  intros HN. unfold lookup_all.
  assert (G : forall l, (forall k a, In (k, a) l -> dget (c_arrays c) k = Some a) ->
     mapM (fun n => dgetE (c_arrays c) n) (map fst (filter (fun kv => f (snd kv)) l)) = Ok (filter f (map snd l))).
  { induction l as [|[k a] l IH]; simpl; intros H; auto.
    destruct (f a); simpl; [|apply IH; auto].
    rewrite IH by auto. unfold dgetE. rewrite (H k a) by auto. auto. }
  apply G. intros; apply In_dget; auto.
Qed.
Lemma mics_eq (c : coll E) : coll_ok c -> mics c = Ok (filter is_mic (map snd (c_arrays c))).
Proof. intros O. unfold mics. rewrite (ok_mic O). apply lookup_names, (ok_names O). Qed.
Lemma sources_eq (c : coll E) : coll_ok c -> sources c = Ok (filter is_source (map snd (c_arrays c))).
Proof. intros O. unfold sources. rewrite (ok_src O). apply lookup_names, (ok_names O). Qed.
Lemma free_sources_eq (c : coll E) : coll_ok c -> free_sources c = Ok (filter is_free (map snd (c_arrays c))).
Proof. intros O. unfold free_sources. rewrite (ok_free O). apply lookup_names, (ok_names O). Qed.

Lemma mapM_app {A B} (f : A -> res B) l1 l2 : mapM f (l1 ++ l2) = (x <- mapM f l1 ;; y <- mapM f l2 ;; Ok (x ++ y)).
Proof.
  induction l1 as [|x l IH]; simpl. { destruct (mapM f l2); auto. }
  destruct (f x); simpl; auto. rewrite IH. destruct (mapM f l); simpl; auto. destruct (mapM f l2); auto.
Qed.
Lemma combos_prod (c : coll E) ls lm xs ys : lookup_all c ls = Ok xs -> lookup_all c lm = Ok ys ->
  mapM (fun sm => s <- dgetE (c_arrays c) (fst sm) ;; m <- dgetE (c_arrays c) (snd sm) ;; Ok (s, m)) (list_prod ls lm)
  = Ok (list_prod xs ys).
Proof.
  intros HX HY. revert xs HX. induction ls as [|s ls IH]; simpl; intros xs HX.
  - inversion HX; subst; auto.
  - unfold lookup_all in HX. simpl in HX. apply bind_ok in HX as (a & Ha & HX). apply bind_ok in HX as (r & Hr & HX).
    inversion HX; subst; clear HX. rewrite mapM_app. rewrite (IH r) by auto.
    assert (G : mapM (fun sm => s <- dgetE (c_arrays c) (fst sm) ;; m <- dgetE (c_arrays c) (snd sm) ;; Ok (s, m))
      (map (fun y => (s, y)) lm) = Ok (map (fun y => (a, y)) ys)).
    { clear - HY Ha. revert ys HY. induction lm as [|m lm IH]; simpl; intros ys HY; [inversion HY; auto|].
      unfold lookup_all in HY. simpl in HY. apply bind_ok in HY as (b & Hb & HY). apply bind_ok in HY as (q & Hq & HY).
      inversion HY; subst. rewrite Ha, Hb. simpl. rewrite (IH q); auto. }
    rewrite G. simpl. auto.
Qed.
Lemma combos_eq (c : coll E) : coll_ok c -> mic_src_combos c =
  Ok (list_prod (filter is_source (map snd (c_arrays c))) (filter is_mic (map snd (c_arrays c)))).
Proof.
  intros O. unfold mic_src_combos. apply combos_prod; [apply (sources_eq O)|apply (mics_eq O)].
Qed.
(** the pairs by name *)
Lemma combos_names (c : coll E) cs : coll_ok c -> mic_src_combos c = Ok cs ->
  map (fun sm => (a_name (fst sm), a_name (snd sm))) cs = list_prod (c_src c) (c_mic c) /\
  (forall s m, In (s, m) cs <-> the_array c (a_name s) s /\ the_array c (a_name m) m /\ is_source s = true /\ is_mic m = true).
Proof.
  intros O H. rewrite (combos_eq O) in H. inversion H; subst; clear H.
  assert (HN : forall f : arr -> bool, map (fun a => a_name a) (filter f (map snd (c_arrays c))) = map fst (filter (fun kv => f (snd kv)) (c_arrays c))).
  { intros f. assert (HK : forall k a, In (k, a) (c_arrays c) -> a_name a = k) by (intros; apply (ok_key O); apply In_dget; auto; apply (ok_names O)).
    revert HK. induction (c_arrays c) as [|[k a] l IH]; simpl; intros HK; auto.
    destruct (f a); simpl; rewrite IH; auto. f_equal; auto. }
  assert (HI : forall (f : arr -> bool) a, In a (filter f (map snd (c_arrays c))) <-> the_array c (a_name a) a /\ f a = true).
  { intros f a. rewrite filter_In, in_map_iff. unfold the_array. split.
    - intros [([k b] & Eb & Hb) Hf]. simpl in Eb; subst. split; auto.
      assert (D : dget (c_arrays c) k = Some a) by (apply In_dget; auto; apply (ok_names O)).
      rewrite (ok_key O _ D); auto.
    - intros [D Hf]. split; auto. exists (a_name a, a); split; auto. apply dget_In; auto. }
  split.
  - rewrite (ok_src O), (ok_mic O), <- !HN.
    generalize (filter is_source (map snd (c_arrays c))) as xs. generalize (filter is_mic (map snd (c_arrays c))) as ys.
    intros ys xs. induction xs as [|x xs IH]; simpl; auto. rewrite map_app, IH, !map_map; auto.
  - intros s m. rewrite in_prod_iff, !HI. tauto.
Qed.
End Coll.
