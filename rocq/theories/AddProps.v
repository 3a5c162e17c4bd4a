(** C77: adding all arrays of a collection to the set-up of a simulator. *)
Require Import Verif.PyBase Verif.PyLemmas Verif.ConfigModel Verif.ArrayModel Verif.ArraySpec Verif.ArrayProofs Verif.ArrayPaths Verif.ArrayProps Verif.Demo.
Set Implicit Arguments.

Section Add.
Context {E : AEnv}.
Notation arr := (arr Pos Src).
Implicit Types c : coll E.

(** path types are only stored for known sources and microphones, in proper dictionaries *)
Definition types_wf c : Prop :=
  NoDup (dkeys (c_ptypes c)) /\
  forall s d, In (s, d) (c_ptypes c) -> In s (c_src c) /\ NoDup (dkeys d) /\ forall m t, In (m, t) d -> In m (c_mic c).

Lemma NoDup_dset {A} (d : dict A) k x : NoDup (dkeys d) -> NoDup (dkeys (dset d k x)).
Proof.
  intros H. destruct (dget d k) as [y|] eqn:Q; [rewrite (dkeys_dset_mem _ _ _ Q); auto|]. rewrite (dkeys_dset_new _ _ _ Q). apply NoDup_app_intro; auto; [repeat constructor; auto|].
  intros z Hz [<-|[]]. apply dget_None in Q. auto.
Qed.
Lemma In_dset {A} (d : dict A) k x k' y : In (k', y) (dset d k x) -> (k' = k /\ y = x) \/ In (k', y) d.
Proof.
  induction d as [|[k1 z] d IH]; cbn [dset]; [intros [H|[]]; injection H; auto|]. destruct (String.eqb_spec k k1).
  - intros [H|H]; [injection H as <- <-; auto|right; right; auto].
  - intros [H|H]; [right; left; auto|]. apply IH in H as [H|H]; auto. right; right; auto.
Qed.
Lemma types_dset2 c s m t ps : types_wf c -> In s (c_src c) -> In m (c_mic c) -> dset2 (c_ptypes c) s m t = Ok ps -> types_wf (set_ptypes c ps).
Proof.
  intros [W1 W2] Hs Hm H. unfold dset2, dgetE in H. destruct (dget (c_ptypes c) s) as [d|] eqn:Q; [|discriminate]. cbn [bind] in H. injection H as <-.
  split; cbn [c_ptypes set_ptypes c_src c_mic]; [apply NoDup_dset; auto|]. intros s' d' H. apply In_dset in H as [[-> ->]|H]; [|apply W2; auto].
  apply dget_In in Q. destruct (W2 _ _ Q) as (A & B & C). split; auto. split; [apply NoDup_dset; auto|]. intros m' t' K. apply In_dset in K as [[-> ->]|K]; eauto.
Qed.
Lemma built_types Q c : built Q c -> types_wf c.
Proof.
  induction 1 as [g|c a c' u B IH _ H|c p s m c' B IH H|c t s m c' B IH H|c t c' B IH H|c i c' B IH H|c g c' B IH H].
  - split; [constructor|]. intros s d [].
  - unfold add_array, dmem in H. destruct (dget (c_arrays c) (a_name a)) eqn:Qn; [discriminate|]. destruct IH as [W1 W2].
    destruct (is_mic a); [|destruct (is_source a); [|discriminate]]; injection H as <- _; split; cbn [c_ptypes c_src c_mic]; auto.
    + intros s d Hd. destruct (W2 _ _ Hd) as (A & X & Y). split; auto. split; auto. intros m t Hm. apply in_app_iff. left. eauto.
    + apply NoDup_dset; auto.
    + intros s d Hd. apply In_dset in Hd as [[-> ->]|Hd]; [split; [apply in_app_iff; right; left; auto|split; [constructor|intros m t []]]|].
      destruct (W2 _ _ Hd) as (A & X & Y). split; auto. apply in_app_iff. auto.
  - apply set_prop_path_ok in H as (_ & _ & _ & A & T & _). unfold types_wf. rewrite T, (sa_src A), (sa_mic A). auto.
  - unfold set_path_type, passert in H. destruct (smem s (c_src c)) eqn:Q1; [|discriminate]. destruct (smem m (c_mic c)) eqn:Q2; [|discriminate]. cbn [bind] in H.
    apply bind_ok in H as (ps & Hp & H). injection H as <-. apply smem_spec in Q1, Q2. eapply types_dset2; eauto.
  - unfold set_default_path_type in H. apply bind_ok in H as (cs & Hc & H). destruct (combos_names (built_ok B) Hc) as [P _].
    assert (K : forall l c c', foldM (set_default_one t) c l = Ok c' -> types_wf c -> (forall sm, In sm l -> In (a_name (fst sm)) (c_src c) /\ In (a_name (snd sm)) (c_mic c)) -> types_wf c').
    { clear. induction l as [|sm l IH]; intros c c' H W HI; cbn [foldM] in H; [injection H as <-; auto|]. apply bind_ok in H as (c1 & H1 & H).
      destruct (HI sm (or_introl eq_refl)) as [I1 I2].
      assert (W1 : types_wf c1 /\ c_src c1 = c_src c /\ c_mic c1 = c_mic c).
      { unfold set_default_one in H1. apply bind_ok in H1 as (ts & _ & H1). apply bind_ok in H1 as (ps & _ & H1).
        destruct (negb (dmem ts (a_name (snd sm))) && negb (dmem ps (a_name (snd sm)))); [|destruct (dmem ps (a_name (snd sm)))].
        - apply bind_ok in H1 as (x & Hx & H1). injection H1 as <-. split; auto. eapply types_dset2; eauto.
        - apply bind_ok in H1 as (x & Hx & H1). injection H1 as <-. split; auto. eapply types_dset2; eauto.
        - injection H1 as <-. auto. }
      destruct W1 as (W1 & S1 & M1). eapply IH; eauto. intros sm' Hsm. rewrite S1, M1. apply HI. right; auto. }
    eapply K; eauto. intros sm Hsm. apply in_prod_iff. rewrite <- P. apply (in_map (fun sm => (a_name (fst sm), a_name (snd sm)))) in Hsm. exact Hsm.
  - destruct (setup_ir_ok _ (built_ok B) H) as (? & ? & _ & _ & _ & _ & _ & A & T & _). unfold types_wf. rewrite T, (sa_src A), (sa_mic A). auto.
  - destruct (update_info _ _ H) as [j Hj]. destruct (update_ok _ (built_ok B) Hj H) as (_ & _ & _ & U1 & U2 & _ & _ & T & _). unfold types_wf. rewrite T, U1, U2. auto.
Qed.
(** every array of a reachable collection is a source or a microphone *)
Lemma built_kinds Q c : built Q c -> forall k a, the_array c k a -> is_mic a || is_source a = true.
Proof.
  induction 1 as [g|c a c' u B IH _ H|c p s m c' B IH H|c t s m c' B IH H|c t c' B IH H|c i c' B IH H|c g c' B IH H]; unfold the_array in *; intros k b Hb.
  - discriminate.
  - destruct (add_array_ok a (built_ok B) H) as (_ & Qn & HA & K & _). rewrite HA, <- (dset_new _ _ a Qn), dget_dset in Hb. destruct (String.eqb_spec k (a_name a)); [injection Hb as <-; auto|eauto].
  - apply set_prop_path_ok in H as (_ & _ & _ & A & _). rewrite (sa_arrays A) in Hb. eauto.
  - apply set_path_type_ok in H as (_ & _ & A & _). rewrite (sa_arrays A) in Hb. eauto.
  - destruct (set_default_ok _ (built_ok B) H) as (_ & A & _). rewrite (sa_arrays A) in Hb. eauto.
  - destruct (setup_ir_ok _ (built_ok B) H) as (? & ? & _ & _ & _ & _ & _ & A & _). rewrite (sa_arrays A) in Hb. eauto.
  - destruct (the_array_update _ (built_ok B) H Hb) as (a0 & Ha & _ & Hk & _). unfold is_mic, is_source. rewrite Hk. apply (IH _ _ Ha).
Qed.

Lemma set_types_inner s : forall d c, In s (c_src c) -> (exists y, dget (c_ptypes c) s = Some y) -> NoDup (dkeys d) -> (forall m t, In (m, t) d -> In m (c_mic c)) ->
  exists c', foldM (fun c mp => set_path_type c s (fst mp) (snd mp)) c d = Ok c' /\ same_arrays c c' /\ c_paths c' = c_paths c /\ c_rng c' = c_rng c /\
    (forall s', (exists y, dget (c_ptypes c) s' = Some y) -> exists y, dget (c_ptypes c') s' = Some y) /\
    forall s' m, lookup2 (c_ptypes c') s' m = if String.eqb s' s then match dget d m with Some t => Some t | None => lookup2 (c_ptypes c) s' m end else lookup2 (c_ptypes c) s' m.
Proof.
  induction d as [|[m t] d IH]; intros c Hs Hd HN HM.
  - exists c. split; auto. split; [apply same_arrays_refl|]. do 3 (split; auto). intros s' m. cbn [dget]. destruct (String.eqb s' s); auto.
  - cbn [foldM fst snd]. assert (exists c1, set_path_type c s m t = Ok c1) as [c1 H1].
    { unfold set_path_type. rewrite (proj2 (smem_spec s (c_src c)) Hs), (proj2 (smem_spec m (c_mic c)) (HM m t (or_introl eq_refl))). cbn [passert bind].
      destruct (@dset2_total _ (c_ptypes c) s m t Hd) as [ps ->]. cbn [bind]. eauto. }
    rewrite H1. cbn [bind]. apply set_path_type_ok in H1 as (_ & _ & A & P & R & K & L). cbn [dkeys map fst] in HN. inversion HN as [|? ? N1 N2]; subst.
    destruct (IH c1) as (c' & F1 & F2 & F3 & F4 & F5 & F6); auto.
    + rewrite (sa_src A); auto.
    + rewrite (sa_mic A). intros m' t' Hm'. apply (HM m' t'). right; auto.
    + exists c'. split; auto. split; [eapply same_arrays_trans; eauto|]. split; [congruence|]. split; [congruence|]. split; auto.
      intros s' m'. rewrite F6, L. cbn [dget]. destruct (String.eqb_spec s' s); cbn [andb]; auto. destruct (String.eqb_spec m' m); auto. subst m'.
      destruct (dget d m) eqn:Q; auto. exfalso. apply N1. apply dget_In in Q. apply (in_map fst) in Q. exact Q.
Qed.
Lemma set_types_ok : forall ts c, coll_ok c -> NoDup (dkeys ts) -> (forall s d, In (s, d) ts -> In s (c_src c) /\ NoDup (dkeys d) /\ forall m t, In (m, t) d -> In m (c_mic c)) ->
  exists c', set_path_types c ts = Ok c' /\ same_arrays c c' /\ c_paths c' = c_paths c /\ c_rng c' = c_rng c /\
    forall s m, lookup2 (c_ptypes c') s m = match lookup2 ts s m with Some t => Some t | None => lookup2 (c_ptypes c) s m end.
Proof.
  unfold set_path_types. induction ts as [|[s d] ts IH]; intros c O HN HT.
  - exists c. split; auto. split; [apply same_arrays_refl|]. do 2 (split; auto).
  - cbn [foldM fst snd]. destruct (HT s d (or_introl eq_refl)) as (T1 & T2 & T3). destruct (@set_types_inner s d c T1 (ok_types O _ T1) T2 T3) as (c1 & -> & A & P & R & K & L). cbn [bind].
    cbn [dkeys map fst] in HN. inversion HN as [|? ? N1 N2]; subst. destruct (IH c1) as (c' & F1 & F2 & F3 & F4 & F5); auto.
    + eapply same_arrays_ok; eauto. * rewrite P. apply (ok_paths O). * intros s' Hs'. apply K, (ok_types O). auto.
    + intros s' d' H'. rewrite (sa_src A), (sa_mic A). apply HT. right; auto.
    + exists c'. split; auto. split; [eapply same_arrays_trans; eauto|]. split; [congruence|]. split; [congruence|].
      intros s' m. rewrite F5, L. unfold lookup2. cbn [dget]. destruct (String.eqb_spec s' s); auto. subst s'.
      assert (dget ts s = None) as -> by (apply dget_None; auto). auto.
Qed.
Lemma add_many : forall l c, coll_ok c -> Forall (fun kv : string * arr => fst kv = a_name (snd kv) /\ is_mic (snd kv) || is_source (snd kv) = true) l -> NoDup (dkeys l) ->
  (forall k, In k (dkeys l) -> dget (c_arrays c) k = None) ->
  exists c', foldM (fun c kv => let '(c', r) := add_array c (snd kv) in _ <- r ;; Ok c') c l = Ok c' /\ coll_ok c' /\ c_arrays c' = c_arrays c ++ l /\ c_info c' = c_info c /\ c_rng c' = c_rng c /\
    (forall s m, lookup2 (c_paths c') s m = if smem s (map fst (filter (fun kv => is_source (snd kv)) l)) then None else lookup2 (c_paths c) s m) /\
    (forall s m, lookup2 (c_ptypes c') s m = if smem s (map fst (filter (fun kv => is_source (snd kv)) l)) then None else lookup2 (c_ptypes c) s m).
Proof.
  induction l as [|[k a] l IH]; intros c O HF HN HD.
  - exists c. rewrite app_nil_r. cbn. auto 10.
  - inversion HF as [|? ? [F1 F2] F3]; subst. cbn [fst snd] in *. cbn [foldM snd]. cbn [dkeys map fst] in HN. inversion HN as [|? ? N1 N2]; subst.
    assert (Qn : dget (c_arrays c) (a_name a) = None) by (apply HD; left; auto).
    destruct (add_array c a) as [c1 [u|e]] eqn:QA.
    2:{ exfalso. apply add_array_err in QA as [(H & _)|(_ & H & _)]; [contradiction|]. unfold is_mic, is_source in F2. rewrite H in F2. discriminate. }
    cbn [bind]. pose proof QA as QA'. unfold add_array, dmem in QA'. rewrite Qn in QA'.
    destruct (add_array_ok a O QA) as (O1 & _ & A1 & _ & _ & _ & _ & I1 & R1 & P1 & T1 & PT).
    destruct (IH c1) as (c' & G1 & G2 & G3 & G4 & G5 & G6 & G7); auto.
    { intros k' Hk'. rewrite A1, <- (dset_new _ _ a Qn), dget_dset. destruct (String.eqb_spec k' (a_name a)); [subst; contradiction|]. apply HD. right; auto. }
    exists c'. split; auto. split; auto. split; [rewrite G3, A1, <- app_assoc; auto|]. split; [congruence|]. split; [congruence|].
    assert (LK : forall {X} (d d' : dict (dict X)) s m, (forall s m, s <> a_name a -> lookup2 d' s m = lookup2 d s m) -> (is_source a = true -> lookup2 d' (a_name a) m = None) ->
      (is_source a = false -> d' = d) -> lookup2 d' s m = if is_source a && String.eqb s (a_name a) then None else lookup2 d s m).
    { intros X d d' s m H1 H2 H3. destruct (is_source a); cbn [andb]; [|rewrite H3; auto]. destruct (String.eqb_spec s (a_name a)); [subst; auto|auto]. }
    assert (SM : forall s r, smem s (a_name a :: r) = String.eqb s (a_name a) || smem s r) by (intros; cbn; reflexivity).
    split; intros s m; [rewrite G6, (LK _ (c_paths c) (c_paths c1) s m) | rewrite G7, (LK _ (c_ptypes c) (c_ptypes c1) s m)]; auto;
      try (intros Hq; apply PT; exact Hq);
      try (intros Hq; rewrite Hq in QA'; destruct (is_mic a); injection QA' as <- _; reflexivity || discriminate);
      cbn [filter snd]; destruct (is_source a) eqn:Qs; cbn [andb map fst]; auto; rewrite SM; destruct (String.eqb s (a_name a)); cbn [orb]; auto; destruct (smem s _); auto.
Qed.

(** C77.  Adding a collection whose names are all new: afterwards its arrays, in their order, follow those that were
    there, each in the lists of its class; its path types are those it had, the others stay.  No path of it is taken
    over. *)
Theorem C77_added Q1 Q2 c c2 : built Q1 c -> built Q2 c2 -> (forall k, In k (dkeys (c_arrays c2)) -> dget (c_arrays c) k = None) ->
  exists c', add_arrays c c2 = Ok c' /\ c_arrays c' = c_arrays c ++ c_arrays c2 /\
    c_mic c' = c_mic c ++ c_mic c2 /\ c_src c' = c_src c ++ c_src c2 /\ c_free c' = c_free c ++ c_free c2 /\
    c_info c' = c_info c /\ c_rng c' = c_rng c /\
    (forall s m, In s (c_src c) -> lookup2 (c_ptypes c') s m = lookup2 (c_ptypes c) s m /\ lookup2 (c_paths c') s m = lookup2 (c_paths c) s m) /\
    (forall s m, In s (c_src c2) -> lookup2 (c_ptypes c') s m = lookup2 (c_ptypes c2) s m /\ lookup2 (c_paths c') s m = None).
Proof.
  intros B1 B2 HD. pose proof (built_ok B1) as O1. pose proof (built_ok B2) as O2. destruct (built_types B2) as [W1 W2].
  destruct (@add_many (c_arrays c2) c O1) as (c1 & A & Oc & A1 & I1 & R1 & P1 & T1); auto.
  { apply Forall_forall. intros [k a] Hin. cbn [fst snd]. pose proof (In_dget _ _ _ (ok_names O2) Hin) as Hk. split; [symmetry; eapply (ok_key O2); eauto|eapply built_kinds; eauto]. }
  { apply (ok_names O2). }
  rewrite <- (ok_src O2) in P1, T1.
  assert (M1 : c_mic c1 = c_mic c ++ c_mic c2) by (rewrite (ok_mic Oc), A1, filter_app, map_app, <- (ok_mic O1), <- (ok_mic O2); auto).
  assert (S1 : c_src c1 = c_src c ++ c_src c2) by (rewrite (ok_src Oc), A1, filter_app, map_app, <- (ok_src O1), <- (ok_src O2); auto).
  assert (F1 : c_free c1 = c_free c ++ c_free c2) by (rewrite (ok_free Oc), A1, filter_app, map_app, <- (ok_free O1), <- (ok_free O2); auto).
  destruct (@set_types_ok (c_ptypes c2) c1 Oc W1) as (c' & H & SA & P2 & R2 & L).
  { intros s d Hd. destruct (W2 _ _ Hd) as (X & Y & Z). rewrite S1, M1. split; [apply in_app_iff; auto|]. split; auto. intros m t Hm. apply in_app_iff. right. eauto. }
  assert (DJ : forall s, In s (c_src c) -> ~ In s (c_src c2)).
  { intros s H1 H2. apply (src_names _ O1) in H1 as (a & Ha & _). apply (src_names _ O2) in H2 as (b & Hb & _). unfold the_array in *.
    apply dget_In, (in_map fst) in Hb. rewrite (HD s Hb) in Ha. discriminate. }
  exists c'. split; [unfold add_arrays; rewrite A; cbn [bind]; auto|]. rewrite (sa_arrays SA), (sa_mic SA), (sa_src SA), (sa_free SA), (sa_info SA).
  do 4 (split; [assumption|]). split; [auto|]. split; [congruence|]. split; intros s m Hs.
  - pose proof (DJ _ Hs) as Hn. apply smem_false in Hn. rewrite L, P2, P1, T1, Hn. split; auto.
    assert (lookup2 (c_ptypes c2) s m = None) as ->; auto. unfold lookup2. destruct (dget (c_ptypes c2) s) as [d|] eqn:Q; auto. exfalso. apply dget_In in Q. apply W2 in Q as [Q _]. eapply DJ; eauto.
  - apply smem_spec in Hs. rewrite L, P2, P1, T1, Hs. split; auto. destruct (lookup2 (c_ptypes c2) s m); auto.
Qed.
(** a name that is already there: refused *)
Lemma clash_many : forall l c, coll_ok c -> Forall (fun kv : string * arr => fst kv = a_name (snd kv) /\ is_mic (snd kv) || is_source (snd kv) = true) l ->
  (exists k, In k (dkeys l) /\ dget (c_arrays c) k <> None) -> foldM (fun c kv => let '(c', r) := add_array c (snd kv) in _ <- r ;; Ok c') c l = Err AssertionError.
Proof.
  induction l as [|[k a] l IH]; intros c O HF (k' & [] & HD); cbn [fst] in *; inversion HF as [|? ? [F1 F2] F3]; subst; cbn [fst snd] in *; cbn [foldM snd].
  - destruct (add_array c a) as [c1 [u|e]] eqn:QA.
    + exfalso. destruct (add_array_ok a O QA) as (_ & Qn & _). subst k'. contradiction.
    + apply add_array_err in QA as [(_ & _ & ->)|(Qn & _)]; [auto|subst k'; contradiction].
  - destruct (add_array c a) as [c1 [u|e]] eqn:QA.
    + cbn [bind]. destruct (add_array_ok a O QA) as (O1 & Qn & A1 & _). apply IH; auto. exists k'. split; auto. rewrite A1, <- (dset_new _ _ a Qn), dget_dset. destruct (String.eqb k' (a_name a)); auto. discriminate.
    + apply add_array_err in QA as [(_ & _ & ->)|(_ & H' & _)]; [auto|]. unfold is_mic, is_source in F2. rewrite H' in F2. discriminate.
Qed.
Theorem C77_clash Q1 Q2 c c2 k : built Q1 c -> built Q2 c2 -> In k (dkeys (c_arrays c2)) -> In k (dkeys (c_arrays c)) -> add_arrays c c2 = Err AssertionError.
Proof.
  intros B1 B2 H2 H1. unfold add_arrays. rewrite clash_many; auto.
  - apply built_ok in B1; auto.
  - apply Forall_forall. intros [k1 a] Hin. cbn [fst snd]. pose proof (built_ok B2) as O2. pose proof (In_dget _ _ _ (ok_names O2) Hin) as Hk. split; [symmetry; eapply (ok_key O2); eauto|eapply built_kinds; eauto].
  - exists k. split; auto. intros Q. apply dget_None in Q. auto.
Qed.
End Add.

Section Examples.
Existing Instance demo.
Local Open Scope string_scope.
Local Open Scope Z_scope.
Let other : list (arr Pos Src) := [mk "m0" KMic 5 None; mk "s0" KCtrl 4 None].
(** the collection of ArrayProps with a path given by the user, before anything is generated *)
Definition given_coll : res (coll demo) :=
  c <- add_all (empty_coll ex_g) ex_arrays ;; c <- set_prop_path c ex_user "src" "mic1" ;; set_path_type c "spk" "mic2" "random".
Lemma given_built c : given_coll = Ok c -> built (sized (fun _ => 1)) c.
Proof. unfold given_coll. intros H. apply bind_ok in H as (a & A & H). apply bind_ok in H as (b & B & H). eapply built_type; [|exact H]. eapply built_path; [|exact B]. exact (ex_add A). Qed.
Example C77_added_meets : exists c c2, add_all (empty_coll ex_g) other = Ok c /\ given_coll = Ok c2 /\ built (sized (fun _ => 1)) c /\ built (sized (fun _ => 1)) c2 /\
  (forall k, In k (dkeys (c_arrays c2)) -> dget (c_arrays c) k = None).
Proof.
  assert (I : is_ok (add_all (empty_coll ex_g) other) = true) by (vm_compute; reflexivity). destruct (is_ok_ex _ I) as [c H].
  assert (I2 : is_ok given_coll = true) by (vm_compute; reflexivity). destruct (is_ok_ex _ I2) as [c2 H2]. exists c, c2. split; [exact H|]. split; [exact H2|].
  split; [eapply add_all_built; [|constructor|exact H]; repeat constructor; simpl; intros; auto; discriminate|]. split; [exact (given_built H2)|].
  assert (K1 : get (add_all (empty_coll ex_g) other) (fun c => dkeys (c_arrays c)) = Some ["m0"; "s0"]) by (vm_compute; reflexivity).
  assert (K2 : get given_coll (fun c => dkeys (c_arrays c)) = Some ["mic1"; "src"; "mic2"; "spk"]) by (vm_compute; reflexivity).
  rewrite H in K1. rewrite H2 in K2. cbn [get] in K1, K2. injection K1 as K1. injection K2 as K2. intros k Hk. apply dget_None. intros Hk1.
  assert (J2 : In k ["mic1"; "src"; "mic2"; "spk"]) by (rewrite <- K2; exact Hk). assert (J1 : In k ["m0"; "s0"]) by (rewrite <- K1; exact Hk1). clear - J1 J2. cbn [In] in *.
  intuition (subst; discriminate).
Qed.
Example C77_values : get (c <- add_all (empty_coll ex_g) other ;; c2 <- given_coll ;; add_arrays c c2)
    (fun c => (c_mic c, c_src c, c_free c, lookup2 (c_ptypes c) "spk" "mic2")) = Some (["m0"; "mic1"; "mic2"], ["s0"; "src"; "spk"], ["src"], Some "random").
Proof. vm_compute. reflexivity. Qed.
Example C77_clash_meets : exists c, given_coll = Ok c /\ built (sized (fun _ => 1)) c /\ In "src" (dkeys (c_arrays c)).
Proof.
  assert (I2 : is_ok given_coll = true) by (vm_compute; reflexivity). destruct (is_ok_ex _ I2) as [c2 H2]. exists c2. split; [exact H2|]. split; [exact (given_built H2)|].
  assert (K2 : get given_coll (fun c => dkeys (c_arrays c)) = Some ["mic1"; "src"; "mic2"; "spk"]) by (vm_compute; reflexivity).
  rewrite H2 in K2. cbn [get] in K2. injection K2 as K2.
  assert (J : In "src" ["mic1"; "src"; "mic2"; "spk"]) by (cbn [In]; auto). rewrite <- K2 in J. exact J.
Qed.
Definition no_path (c : coll demo) s m : bool := match lookup2 (c_paths c) s m with None => true | Some _ => false end.
Lemma no_path_ok c s m : no_path c s m = true -> lookup2 (c_paths c) s m = None.
Proof. unfold no_path. destruct (lookup2 (c_paths c) s m); [discriminate|auto]. Qed.
(** Not everything set in a collection is kept: the path given by the user is lost, and once paths are set up the
    simulation uses a generated one. *)
Theorem C77_path_refuted : exists c2 c c', given_coll = Ok c2 /\ built (sized (fun _ => 1)) c2 /\ taps c2 "src" "mic1" = Some (2, [7; 8; 9; 10]) /\
  add_arrays (empty_coll ex_g) c2 = Ok c /\ lookup2 (c_paths c) "src" "mic1" = None /\
  (d <- set_default_path_type c "ism" ;; setup_ir d demo_info) = Ok c' /\ taps c' "src" "mic1" = Some (8, [0; 0; 0; 1]).
Proof.
  assert (K : get (c2 <- given_coll ;; c <- add_arrays (empty_coll ex_g) c2 ;; c' <- (d <- set_default_path_type c "ism" ;; setup_ir d demo_info) ;; Ok (c2, c, c'))
    (fun x => (taps (fst (fst x)) "src" "mic1", no_path (snd (fst x)) "src" "mic1", taps (snd x) "src" "mic1"))
    = Some (Some (2, [7; 8; 9; 10]), true, Some (8, [0; 0; 0; 1]))) by (vm_compute; reflexivity).
  apply get_ex in K as (x & K & K'). apply bind_ok in K as (c2 & H2 & K). apply bind_ok in K as (c & H & K). apply bind_ok in K as (c' & Hc' & K). injection K as <-.
  cbn [fst snd] in K'. injection K' as K1 K2 K3. exists c2, c, c'. split; [exact H2|]. split; [exact (given_built H2)|]. split; [exact K1|]. split; [exact H|].
  split; [exact (no_path_ok _ _ _ K2)|]. split; [exact Hc'|exact K3].
Qed.
(** and a collection in which path types were already resolved cannot be simulated at all: the pair is marked as having
    a given path, so that none is generated *)
Theorem C77_resolved_refuted : exists c2 c c', ex_coll = Ok c2 /\ built (sized (fun _ => 1)) c2 /\ add_arrays (empty_coll ex_g) c2 = Ok c /\
  (d <- set_default_path_type c "ism" ;; setup_ir d demo_info) = Ok c' /\ lookup2 (c_ptypes c') "src" "mic1" = Some "modified" /\ lookup2 (c_paths c') "src" "mic1" = None.
Proof.
  assert (K : get (c2 <- ex_coll ;; c <- add_arrays (empty_coll ex_g) c2 ;; c' <- (d <- set_default_path_type c "ism" ;; setup_ir d demo_info) ;; Ok (c2, c, c'))
    (fun x => (lookup2 (c_ptypes (snd x)) "src" "mic1", no_path (snd x) "src" "mic1")) = Some (Some "modified", true)) by (vm_compute; reflexivity).
  apply get_ex in K as (x & K & K'). apply bind_ok in K as (c2 & H2 & K). apply bind_ok in K as (c & H & K). apply bind_ok in K as (c' & Hc' & K). injection K as <-.
  cbn [fst snd] in K'. injection K' as K1 K2. exists c2, c, c'. split; [exact H2|]. split.
  { unfold ex_coll in H2. apply bind_ok in H2 as (a & A & H2). apply bind_ok in H2 as (b & B & H2). apply bind_ok in H2 as (d & C & H2).
    eapply built_default; [|exact H2]. eapply built_type; [|exact C]. eapply built_path; [|exact B]. exact (ex_add A). }
  split; [exact H|]. split; [exact Hc'|]. split; [exact K1|]. exact (no_path_ok _ _ _ K2).
Qed.
End Examples.

Print Assumptions C77_added.
Print Assumptions C77_clash.
Print Assumptions C77_path_refuted.
Print Assumptions C77_resolved_refuted.
