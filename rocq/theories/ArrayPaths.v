(** Lemmas about path types and path generation. *)
Require Import Verif.PyBase Verif.PyLemmas Verif.ConfigModel Verif.ArrayModel Verif.ArraySpec Verif.ArrayProofs.
From Coq Require Import Permutation.
Set Implicit Arguments.

Section Paths.
Context {E : AEnv}.
Notation arr := (arr Pos Src).
Implicit Types c : coll E.

(** everything but types, paths and random state is the same *)
Record same_arrays c c' : Prop := {
  sa_arrays : c_arrays c' = c_arrays c; sa_mic : c_mic c' = c_mic c; sa_src : c_src c' = c_src c;
  sa_free : c_free c' = c_free c; sa_info : c_info c' = c_info c }.
Lemma same_arrays_refl c : same_arrays c c. Proof. split; auto. Qed.
Lemma same_arrays_trans c1 c2 c3 : same_arrays c1 c2 -> same_arrays c2 c3 -> same_arrays c1 c3.
Proof. intros [] []; split; congruence. Qed.
Lemma same_arrays_ok c c' : coll_ok c -> same_arrays c c' ->
  (forall s, In s (c_src c) -> exists d, dget (c_paths c') s = Some d) ->
  (forall s, In s (c_src c) -> exists d, dget (c_ptypes c') s = Some d) -> coll_ok c'.
Proof.
  intros O A P T. destruct A as [A1 A2 A3 A4 A5]. split; rewrite ?A1, ?A2, ?A3, ?A4; try apply O; auto.
Qed.

(* ---------------------------------------------------------------- defaults *)
Lemma set_default_one_ok pt c sm c' : set_default_one pt c sm = Ok c' ->
  same_arrays c c' /\ c_paths c' = c_paths c /\ c_rng c' = c_rng c /\
  (forall s, (exists y, dget (c_ptypes c) s = Some y) -> exists y, dget (c_ptypes c') s = Some y) /\
  forall s m, lookup2 (c_ptypes c') s m =
    if String.eqb s (a_name (fst sm)) && String.eqb m (a_name (snd sm)) then Some (resolved pt c s m) else lookup2 (c_ptypes c) s m.
Proof.
  unfold set_default_one. intros H. apply bind_ok in H as (ts & H1 & H). apply bind_ok in H as (ps & H2 & H).
  unfold dgetE in H1, H2. destruct (dget (c_ptypes c) (a_name (fst sm))) eqn:Q1; inversion H1; subst; clear H1.
  destruct (dget (c_paths c) (a_name (fst sm))) eqn:Q2; inversion H2; subst; clear H2.
  set (s0 := a_name (fst sm)) in *. set (m0 := a_name (snd sm)) in *.
  assert (L1 : lookup2 (c_ptypes c) s0 m0 = dget ts m0) by (unfold lookup2; rewrite Q1; auto).
  assert (L2 : lookup2 (c_paths c) s0 m0 = dget ps m0) by (unfold lookup2; rewrite Q2; auto).
  unfold dmem in H.
  assert (HR : resolved pt c s0 m0 = match dget ps m0 with Some _ => "modified"%string
     | None => match dget ts m0 with Some t => t | None => pt end end) by (unfold resolved; rewrite L1, L2; auto).
  destruct (dget ts m0) as [t3|] eqn:Q3, (dget ps m0) as [p4|] eqn:Q4; simpl in H.
  1,3: apply bind_ok in H as (x & H & Hc); inversion Hc; subst; clear Hc; apply dset2_ok in H as (_ & H & H' & _);
    split; [split; auto|]; split; auto; split; auto; split; auto; intros s m; simpl; rewrite H;
    destruct (String.eqb_spec s s0), (String.eqb_spec m m0); simpl; auto; subst s m; rewrite HR; auto.
  - inversion H; subst c'; clear H. split; [split; auto|]. split; auto. split; auto. split; auto. intros s m.
    destruct (String.eqb_spec s s0), (String.eqb_spec m m0); simpl; auto. subst s m. rewrite HR, L1; auto.
  - apply bind_ok in H as (x & H & Hc); inversion Hc; subst; clear Hc; apply dset2_ok in H as (_ & H & H' & _).
    split; [split; auto|]; split; auto; split; auto; split; auto; intros s m; simpl; rewrite H;
    destruct (String.eqb_spec s s0), (String.eqb_spec m m0); simpl; auto; subst s m; rewrite HR; auto.
Qed.

Lemma In_pair_dec (l : list (string * string)) x : {In x l} + {~ In x l}.
Proof. apply in_dec. decide equality; apply string_dec. Qed.

Lemma set_default_fold pt l : forall c c', foldM (set_default_one pt) c l = Ok c' ->
  same_arrays c c' /\ c_paths c' = c_paths c /\ c_rng c' = c_rng c /\
  (forall s, (exists y, dget (c_ptypes c) s = Some y) -> exists y, dget (c_ptypes c') s = Some y) /\
  (forall s m, In (s, m) (pair_names l) -> lookup2 (c_ptypes c') s m = Some (resolved pt c s m)) /\
  (forall s m, ~ In (s, m) (pair_names l) -> lookup2 (c_ptypes c') s m = lookup2 (c_ptypes c) s m).
Proof.
  induction l as [|x l IH]; simpl; intros c c' H.
  - inversion H; subst. split; [apply same_arrays_refl|]. repeat split; auto. tauto.
  - apply bind_ok in H as (c1 & H1 & H). apply set_default_one_ok in H1 as (A1 & P1 & G1 & T1 & L1).
    apply IH in H as (A2 & P2 & G2 & T2 & I2 & N2).
    assert (R : forall s m, resolved pt c1 s m = resolved pt c s m).
    { intros s m. unfold resolved at 1. rewrite P1, L1.
      destruct (String.eqb_spec s (a_name (fst x))), (String.eqb_spec m (a_name (snd x))); simpl; auto.
      unfold resolved. destruct (lookup2 (c_paths c) s m); auto. }
    split; [eapply same_arrays_trans; eauto|]. split; [congruence|]. split; [congruence|]. split; [auto|].
    split; intros s m Hin.
    + destruct (In_pair_dec (pair_names l) (s, m)) as [Hl|Hl].
      * rewrite I2 by auto. rewrite R; auto.
      * rewrite N2, L1 by auto. destruct Hin as [Hin|Hin]; [|tauto]. inversion Hin; subst.
        rewrite !String.eqb_refl; auto.
    + rewrite N2, L1 by tauto. destruct (String.eqb_spec s (a_name (fst x))), (String.eqb_spec m (a_name (snd x))); simpl; auto.
      subst. exfalso; apply Hin; auto.
Qed.

Lemma set_default_ok c pt c' : coll_ok c -> set_default_path_type c pt = Ok c' ->
  coll_ok c' /\ same_arrays c c' /\ c_paths c' = c_paths c /\ c_rng c' = c_rng c /\
  forall s m, lookup2 (c_ptypes c') s m =
    if smem s (c_src c) && smem m (c_mic c) then Some (resolved pt c s m) else lookup2 (c_ptypes c) s m.
Proof.
  intros O H. unfold set_default_path_type in H. apply bind_ok in H as (cs & Hc & H).
  destruct (combos_names O Hc) as [HN _]. apply set_default_fold in H as (A & P & G & T & I1 & N1).
  split; [|split; [auto|split; [auto|split; [auto|]]]].
  - eapply same_arrays_ok; eauto. { rewrite P; apply O. } intros; apply T; apply O; auto.
  - intros s m. assert (HI : In (s, m) (pair_names cs) <-> In s (c_src c) /\ In m (c_mic c)).
    { unfold pair_names. rewrite HN. apply in_prod_iff. }
    destruct (smem s (c_src c)) eqn:Q1; destruct (smem m (c_mic c)) eqn:Q2; simpl;
      rewrite ?smem_spec, ?smem_false in *.
    + apply I1; tauto.
    + apply N1; tauto.
    + apply N1; tauto.
    + apply N1; tauto.
Qed.

Lemma set_default_one_total pt c sm : (exists y, dget (c_ptypes c) (a_name (fst sm)) = Some y) ->
  (exists y, dget (c_paths c) (a_name (fst sm)) = Some y) -> exists c', set_default_one pt c sm = Ok c'.
Proof.
  intros [y Hy] [z Hz]. unfold set_default_one, dgetE. rewrite Hy, Hz. simpl.
  assert (T : forall x, exists d, dset2 (c_ptypes c) (a_name (fst sm)) (a_name (snd sm)) x = Ok d) by (intros; apply dset2_total; eauto).
  destruct (negb (dmem y (a_name (snd sm))) && negb (dmem z (a_name (snd sm)))).
  - destruct (T pt) as [d Hd]; rewrite Hd; simpl; eauto.
  - destruct (dmem z (a_name (snd sm))); eauto. destruct (T "modified"%string) as [d Hd]; rewrite Hd; simpl; eauto.
Qed.
Lemma set_default_total c pt : coll_ok c -> exists c', set_default_path_type c pt = Ok c'.
Proof.
  intros O. unfold set_default_path_type. rewrite (combos_eq O). simpl.
  destruct (combos_names O (combos_eq O)) as [HN _].
  set (cs := list_prod _ _) in *.
  assert (HS : forall sm, In sm cs -> In (a_name (fst sm)) (c_src c)).
  { intros sm Hin. assert (In (a_name (fst sm), a_name (snd sm)) (list_prod (c_src c) (c_mic c))).
    { rewrite <- HN. apply in_map_iff. exists sm; auto. } apply in_prod_iff in H; tauto. }
  assert (G : forall l c1, (forall sm, In sm l -> In sm cs) ->
     (forall s, In s (c_src c) -> exists y, dget (c_ptypes c1) s = Some y) ->
     (forall s, In s (c_src c) -> exists y, dget (c_paths c1) s = Some y) -> exists c', foldM (set_default_one pt) c1 l = Ok c').
  { induction l as [|x l IH]; simpl; intros c1 HL HT HP; eauto.
    destruct (@set_default_one_total pt c1 x) as [c2 H2]; auto.
    rewrite H2. simpl. apply set_default_one_ok in H2 as (_ & P & _ & T & _). apply IH; auto.
    rewrite P; auto. }
  apply G; auto; apply O.
Qed.

Lemma set_default_one_same pt c sm : coll_ok c -> In (a_name (fst sm)) (c_src c) -> In (a_name (snd sm)) (c_mic c) ->
  (exists t, lookup2 (c_ptypes c) (a_name (fst sm)) (a_name (snd sm)) = Some t /\
     (lookup2 (c_paths c) (a_name (fst sm)) (a_name (snd sm)) <> None -> t = "modified"%string)) ->
  set_default_one pt c sm = Ok c.
Proof.
  intros O Hs Hm (t & Ht & Hp). unfold set_default_one, dgetE.
  destruct (ok_types O _ Hs) as [y Hy]. destruct (ok_paths O _ Hs) as [z Hz]. rewrite Hy, Hz. simpl.
  assert (Ly : dget y (a_name (snd sm)) = Some t) by (unfold lookup2 in Ht; rewrite Hy in Ht; auto).
  unfold dmem. rewrite Ly. simpl. destruct (dget z (a_name (snd sm))) eqn:Q; auto.
  assert (t = "modified"%string) by (apply Hp; unfold lookup2; rewrite Hz, Q; discriminate). subst.
  rewrite (dset2_id _ _ _ Ht). simpl. destruct c; auto.
Qed.
Lemma set_default_twice c pt pt2 c' : coll_ok c -> set_default_path_type c pt = Ok c' -> set_default_path_type c' pt2 = Ok c'.
Proof.
  intros O H. destruct (set_default_ok _ O H) as (O' & A & P & _ & L).
  unfold set_default_path_type. rewrite (combos_eq O'). simpl.
  destruct (combos_names O' (combos_eq O')) as [HN _]. set (cs := list_prod _ _) in *.
  assert (HS : forall sm, In sm cs -> In (a_name (fst sm)) (c_src c') /\ In (a_name (snd sm)) (c_mic c')).
  { intros sm Hin. apply in_prod_iff. rewrite <- HN. apply in_map_iff. exists sm; auto. }
  revert HS. induction cs as [|x l IH]; simpl; intros HS; auto.
  destruct (HS x) as [Hs Hm]; auto.
  rewrite set_default_one_same; auto. 
  - simpl. clear HN. revert HS. generalize l. clear - O' L A P. intros l HS.
    induction l as [|y l IH]; simpl; auto. destruct (HS y) as [Hs Hm]; [simpl; auto|].
    rewrite set_default_one_same; auto.
    + simpl. apply IH. intros sm [->|Hin]; apply HS; simpl; auto.
    + rewrite L. rewrite (sa_src A) in Hs. rewrite (sa_mic A) in Hm. apply smem_spec in Hs, Hm. rewrite Hs, Hm. simpl.
      eexists; split; eauto. rewrite P. unfold resolved. destruct (lookup2 (c_paths c) (a_name (fst y)) (a_name (snd y))); congruence.
  - rewrite L. rewrite (sa_src A) in Hs. rewrite (sa_mic A) in Hm. apply smem_spec in Hs, Hm. rewrite Hs, Hm. simpl.
    eexists; split; eauto. rewrite P. unfold resolved. destruct (lookup2 (c_paths c) (a_name (fst x)) (a_name (snd x))); congruence.
Qed.

(* ---------------------------------------------------------------- generation *)
Lemma regenerate_ext i types l : forall P Q g R g', (forall s m, P s m = Q s m) ->
  regenerate i types l P g = Ok (R, g') -> exists R', regenerate i types l Q g = Ok (R', g') /\ forall s m, R s m = R' s m.
Proof.
  induction l as [|[s m] l IH]; simpl; intros P Q g R g' HE H.
  - inversion H; subst; eauto.
  - destruct (lookup2 types (a_name s) (a_name m)); [|discriminate].
    apply bind_ok in H as (gp & H1 & H). rewrite H1. simpl. eapply IH; [|eauto].
    intros; cbv beta. destruct (_ && _); auto.
Qed.
Lemma regenerate_values i types l : forall P g R g', regenerate i types l P g = Ok (R, g') -> NoDup (pair_names l) ->
  (forall s m, In (s, m) l -> exists t g1 g2 p, lookup2 types (a_name s) (a_name m) = Some t /\
     create_path i g1 s m t = Ok (g2, p) /\ R (a_name s) (a_name m) = Some p) /\
  (forall s m, ~ In (s, m) (pair_names l) -> R s m = P s m).
Proof.
  induction l as [|[s m] l IH]; simpl; intros P g R g' H HN.
  - inversion H; subst; split; [tauto|auto].
  - inversion HN as [|x y HN1 HN2]; subst.
    destruct (lookup2 types (a_name s) (a_name m)) as [t|] eqn:Q; [|discriminate].
    apply bind_ok in H as ([g1 p] & H1 & H). apply IH in H as [I1 I2]; auto. split.
    + intros s' m' [Hin|Hin]; [inversion Hin; subst|apply I1; auto].
      exists t, g, g1, p. split; auto. split; auto. rewrite I2; auto. cbv beta. rewrite !String.eqb_refl; auto.
    + intros s' m' Hin. rewrite I2 by tauto. cbv beta.
      destruct (String.eqb_spec s' (a_name s)), (String.eqb_spec m' (a_name m)); simpl; auto. subst. exfalso; apply Hin; auto.
Qed.

Lemma update_path_ok c s m c' i : c_info c = Some i -> update_path c s m = Ok c' ->
  exists t gp, lookup2 (c_ptypes c) (a_name s) (a_name m) = Some t /\ t <> "modified"%string /\
    create_path i (c_rng c) s m t = Ok gp /\ c_rng c' = fst gp /\
    same_arrays c c' /\ c_ptypes c' = c_ptypes c /\
    (forall s', (exists y, dget (c_paths c) s' = Some y) -> exists y, dget (c_paths c') s' = Some y) /\
    forall s' m', lookup2 (c_paths c') s' m' =
      if String.eqb s' (a_name s) && String.eqb m' (a_name m) then Some (snd gp) else lookup2 (c_paths c) s' m'.
Proof.
  intros Hi H. unfold update_path in H. apply bind_ok in H as (t & Ht & H). apply dget2E_lookup2 in Ht.
  rewrite Hi in H. unfold passert in H. destruct (String.eqb_spec t "modified"); [discriminate|]. simpl in H.
  apply bind_ok in H as (gp & H1 & H). apply bind_ok in H as (ps & H2 & H). inversion H; subst; clear H.
  apply dset2_ok in H2 as (_ & H2 & H3 & _).
  exists t, gp. repeat split; auto.
Qed.
Lemma update_path_fold i l : forall c c', c_info c = Some i ->
  foldM (fun c sm => update_path c (fst sm) (snd sm)) c l = Ok c' ->
  exists P, regenerate i (c_ptypes c) l (lookup2 (c_paths c)) (c_rng c) = Ok (P, c_rng c') /\
    (forall s m, lookup2 (c_paths c') s m = P s m) /\ same_arrays c c' /\ c_ptypes c' = c_ptypes c /\
    (forall s', (exists y, dget (c_paths c) s' = Some y) -> exists y, dget (c_paths c') s' = Some y).
Proof.
  induction l as [|[s m] l IH]; simpl; intros c c' Hi H.
  - inversion H; subst. eexists; split; eauto. repeat split; auto.
  - apply bind_ok in H as (c1 & H1 & H). destruct (@update_path_ok c s m c1 i Hi H1) as (t & gp & Ht & _ & Hg & Hr & A & T & K & L).
    apply IH in H as (P & HP & HL & A2 & T2 & K2); [|rewrite (sa_info A); auto].
    rewrite Ht, Hg. simpl. rewrite Hr, T in HP. eapply regenerate_ext in HP as (P' & HP & HE); [|exact L].
    exists P'. split; [exact HP|]. split; [intros; rewrite HL; auto|].
    split; [eapply same_arrays_trans; eauto|]. split; [congruence|auto].
Qed.

Lemma create_path_made i g s m t g' p : create_path i g s m t = Ok (g', p) -> made_path i g s m t g' p.
Proof.
  unfold create_path. intros H. apply bind_ok in H as ([g1 q] & H1 & H). inversion H; subst; clear H.
  exists q. split; [|reflexivity]. cbn [fst].
  destruct (String.eqb_spec t "none"); [subst; inversion H1; subst; constructor; auto|].
  destruct (String.eqb_spec t "direct").
  { subst. unfold passert in H1. destruct (Z.eqb_spec (a_num s) (a_num m)); [|discriminate]. inversion H1; subst. constructor; auto. }
  destruct (String.eqb_spec t "random").
  { subst. destruct (np_normal _ _ _ _) as [g2 f] eqn:Q. inversion H1; subst. econstructor; eauto. }
  destruct (String.eqb_spec t "ism"); [|discriminate]. subst.
  destruct (Z.eqb_spec (spatial_dims i) 3); [|discriminate]. destruct (existsb _ _) eqn:Q; [discriminate|].
  constructor; auto. intros d Hd. destruct (String.eqb_spec d "omni"); auto. exfalso.
  rewrite (proj2 (existsb_exists _ _)) in Q; [discriminate|]. exists d; split; auto. apply Bool.negb_true_iff, String.eqb_neq; auto.
Qed.
Lemma create_path_total i g s m t : (exists g' p, create_path i g s m t = Ok (g', p)) <->
  t = "none"%string \/ (t = "direct"%string /\ a_num s = a_num m) \/ t = "random"%string \/
  (t = "ism"%string /\ spatial_dims i = 3 /\ (forall d, In d (a_dirs m) -> d = "omni"%string) /\
   exists g' p, ism3d (rir_params i) g (a_pos s) (a_pos m) = Ok (g', p)).
Proof.
  split.
  - intros (g' & p & H). apply create_path_made in H as (q & R & _). destruct R; eauto 10.
  - unfold create_path. intros [->|[[-> Hn]|[->|(-> & Hd & Ho & g' & p & Hi)]]]; simpl.
    + eauto.
    + rewrite Hn, Z.eqb_refl. simpl. eauto.
    + destruct (np_normal _ _ _ _). simpl. eauto.
    + rewrite Hd. simpl. destruct (existsb _ _) eqn:Q.
      { apply existsb_exists in Q as (d & Hd1 & Hd2). rewrite (Ho d Hd1) in Hd2. discriminate. }
      rewrite Hi. simpl. eauto.
Qed.

(** the pairs whose path is generated by setup_ir *)
Definition generated c (sm : arr * arr) : bool :=
  match lookup2 (c_ptypes c) (a_name (fst sm)) (a_name (snd sm)) with
  | Some t => negb (String.eqb t "modified") | None => true end.

Lemma setup_one_eq i c sm : c_info c = Some i -> a_num (fst sm) <> 0 -> a_num (snd sm) <> 0 ->
  setup_one i c sm = if generated c sm then update_path c (fst sm) (snd sm) else Ok c.
Proof.
  intros Hi H1 H2. unfold setup_one, update_path, generated.
  destruct (Z.eqb_spec (a_num (fst sm)) 0); [lia|]. destruct (Z.eqb_spec (a_num (snd sm)) 0); [lia|]. simpl.
  destruct (lookup2 (c_ptypes c) (a_name (fst sm)) (a_name (snd sm))) as [t|] eqn:Q.
  - rewrite (proj2 (dget2E_lookup2 _ _ _ _) Q). simpl. rewrite Hi. unfold passert. destruct (String.eqb t "modified"); simpl; auto.
  - destruct (dget2E (c_ptypes c) (a_name (fst sm)) (a_name (snd sm))) eqn:Q2; auto.
    apply dget2E_lookup2 in Q2; congruence.
Qed.
Lemma setup_fold i l : forall c, c_info c = Some i -> Forall (fun sm => a_num (fst sm) <> 0 /\ a_num (snd sm) <> 0) l ->
  foldM (setup_one i) c l = foldM (fun c sm => update_path c (fst sm) (snd sm)) c (filter (generated c) l).
Proof.
  induction l as [|sm l IH]; simpl; intros c Hi HF; auto. inversion HF as [|x y [H1 H2] HF']; subst.
  rewrite setup_one_eq by auto. destruct (generated c sm) eqn:Q; simpl; [|apply IH; auto].
  destruct (update_path c (fst sm) (snd sm)) as [c1|] eqn:U; simpl; auto.
  destruct (update_path_ok _ _ _ Hi U) as (t & gp & _ & _ & _ & _ & A & T & _).
  rewrite IH; auto; [|rewrite (sa_info A); auto].
  f_equal. apply filter_ext. intros x. unfold generated. rewrite T; auto.
Qed.

Lemma calc_rir_nonempty cs :
  foldM (fun (_ : unit) (sm : arr * arr) => if (a_num (fst sm) =? 0) || (a_num (snd sm) =? 0) then Err ValueError else Ok tt) tt cs = Ok tt ->
  Forall (fun sm => a_num (fst sm) <> 0 /\ a_num (snd sm) <> 0) cs.
Proof.
  induction cs as [|x l IH]; simpl; intros H; constructor.
  - destruct (Z.eqb_spec (a_num (fst x)) 0), (Z.eqb_spec (a_num (snd x)) 0); simpl in H; try discriminate; auto.
  - apply IH. destruct ((a_num (fst x) =? 0) || (a_num (snd x) =? 0)); simpl in H; [discriminate|auto].
Qed.

Lemma NoDup_map_filter {A B} (f : A -> B) p (l : list A) : NoDup (map f l) -> NoDup (map f (filter p l)).
Proof.
  induction l as [|x l IH]; simpl; intros HN; auto. inversion HN; subst. destruct (p x); simpl; auto.
  constructor; auto. intros H. apply H1. apply in_map_iff in H as (y & Ey & Hy). apply filter_In in Hy as [Hy _].
  rewrite <- Ey. apply in_map; auto.
Qed.

Lemma setup_ir_ok c i c' : coll_ok c -> setup_ir c i = Ok c' ->
  exists cs P, mic_src_combos c = Ok cs /\
    regenerate i (c_ptypes c) (filter (generated c) cs) (lookup2 (c_paths c)) (c_rng c) = Ok (P, c_rng c') /\
    NoDup (pair_names (filter (generated c) cs)) /\
    (forall s m, lookup2 (c_paths c') s m = P s m) /\
    c_info c' = Some i /\ same_arrays (set_info c i) c' /\ c_ptypes c' = c_ptypes c /\ coll_ok c'.
Proof.
  intros O H. unfold setup_ir in H. apply bind_ok in H as (u & Hu & H). apply bind_ok in H as (cs & Hc & H).
  assert (Hc' : mic_src_combos c = Ok cs) by exact Hc.
  unfold calc_rir_parameters in Hu. rewrite Hc in Hu. simpl in Hu. destruct u. apply calc_rir_nonempty in Hu.
  rewrite setup_fold in H by auto.
  destruct (update_path_fold (filter (generated (set_info c i)) cs) (set_info c i) (i := i) eq_refl H) as (P & HP & HL & A & T & K).
  exists cs, P. split; auto. split; [exact HP|].
  split. { destruct (combos_names O Hc') as [HN _]. apply NoDup_map_filter. rewrite HN. apply NoDup_list_prod; [apply NoDup_src|apply NoDup_mic]; auto. }
  split; auto. split; [rewrite (sa_info A); auto|]. split; auto. split; [exact T|].
  assert (O1 : coll_ok (set_info c i)) by (destruct O; split; auto).
  eapply same_arrays_ok; eauto. { intros; apply K, O1; auto. } rewrite T. apply O1.
Qed.

(* ---------------------------------------------------------------- updates *)
Lemma arr_update_name (a : arr) g : a_name (arr_update a g) = a_name a.
Proof. unfold arr_update; destruct (a_traj a); auto. Qed.
Lemma arr_update_kind (a : arr) g : a_kind (arr_update a g) = a_kind a.
Proof. unfold arr_update; destruct (a_traj a); auto. Qed.
Lemma arr_update_num (a : arr) g : a_num (arr_update a g) = a_num a.
Proof. unfold arr_update; destruct (a_traj a); auto. Qed.
Lemma arr_update_traj (a : arr) g : a_traj (arr_update a g) = a_traj a.
Proof. unfold arr_update; destruct (a_traj a) eqn:Q; auto. Qed.
Lemma arr_update_source (a : arr) g : a_source (arr_update a g) = a_source a.
Proof. unfold arr_update; destruct (a_traj a) eqn:Q; auto. Qed.
Lemma arr_update_dirs (a : arr) g : a_dirs (arr_update a g) = a_dirs a.
Proof. unfold arr_update; destruct (a_traj a) eqn:Q; auto. Qed.

Lemma dget_map {A B} (f : A -> B) (d : dict A) k : dget (map (fun kv => (fst kv, f (snd kv))) d) k = option_map f (dget d k).
Proof. induction d as [|[k' v'] r IH]; simpl; auto. destruct (String.eqb k k'); auto. Qed.

Definition moved_arrays c g : dict arr := map (fun kv => (fst kv, arr_update (snd kv) g)) (c_arrays c).
Lemma map_snd_filter {A} (p : A -> bool) (f : A -> A) (d : dict A) : (forall x, p (f x) = p x) ->
  map fst (filter (fun kv => p (snd kv)) (map (fun kv => (fst kv, f (snd kv))) d)) = map fst (filter (fun kv => p (snd kv)) d).
Proof.
  intros H; induction d as [|[k x] d IH]; simpl; auto. rewrite H. destruct (p x); simpl; rewrite IH; auto.
Qed.
Lemma moved_ok c g : coll_ok c -> coll_ok (set_arrays c (moved_arrays c g)).
Proof.
  intros O. destruct O as [O1 O2 O3 O4 O5 O6 O7]. unfold moved_arrays. split; simpl; auto.
  - unfold dkeys in *. rewrite map_map; auto.
  - intros k a. rewrite (dget_map (fun a => arr_update a g)). destruct (dget (c_arrays c) k) as [b|] eqn:Q; simpl; [|discriminate].
    intros H; inversion H; subst. rewrite arr_update_name; auto.
  - rewrite (map_snd_filter is_mic (fun a => arr_update a g)); auto. intros; unfold is_mic; rewrite arr_update_kind; auto.
  - rewrite (map_snd_filter is_source (fun a => arr_update a g)); auto. intros; unfold is_source; rewrite arr_update_kind; auto.
  - rewrite (map_snd_filter is_free (fun a => arr_update a g)); auto. intros; unfold is_free; rewrite arr_update_kind; auto.
Qed.

(** the pairs visited by the loop over changed arrays, in order *)
Fixpoint visits (ss ms : list arr) (changed : list arr) (already : list string) : list (arr * arr) :=
  match changed with
  | [] => []
  | a :: r =>
    (if is_mic a then map (fun s => (s, a)) (filter (fun s => negb (smem (a_name s) already)) ss)
     else map (fun m => (a, m)) (filter (fun m => negb (smem (a_name m) already)) ms))
    ++ visits ss ms r (already ++ [a_name a])
  end.

Lemma foldM_map2 {A B C} (f : A -> C -> res A) (h : B -> C) (p : B -> bool) l : forall a,
  foldM (fun a x => if p x then f a (h x) else Ok a) a l = foldM f a (map h (filter p l)).
Proof.
  induction l as [|x l IH]; simpl; intros a; auto. destruct (p x); simpl; auto. destruct (f a (h x)); simpl; auto.
Qed.

Lemma same_arrays_sources c c' : same_arrays c c' -> sources c' = sources c /\ mics c' = mics c.
Proof. intros A. unfold sources, mics, lookup_all. rewrite (sa_arrays A), (sa_src A), (sa_mic A); auto. Qed.

Lemma update_changed_fold i ss ms names : forall changed c already c' al',
  c_info c = Some i -> sources c = Ok ss -> mics c = Ok ms ->
  map (fun a => a_name a) changed = names -> (forall a, In a changed -> the_array c (a_name a) a) ->
  foldM update_changed (c, already) names = Ok (c', al') ->
  foldM (fun c sm => update_path c (fst sm) (snd sm)) c (visits ss ms changed already) = Ok c' /\
  (forall a, In a changed -> is_mic a || is_source a = true).
Proof.
  induction names as [|n names IH]; intros [|a changed] c already c' al' Hi HS HM HN HA H; try discriminate.
  - simpl in *. inversion H; subst; split; auto.
  - simpl in HN. inversion HN; subst; clear HN. simpl in H. apply bind_ok in H as ([c1 al1] & H1 & H).
    unfold update_changed in H1. apply bind_ok in H1 as (a' & Ha & H1).
    unfold dgetE in Ha. pose proof (HA a (or_introl eq_refl)) as HAa. unfold the_array in HAa. rewrite HAa in Ha. inversion Ha; subst a'; clear Ha.
    apply bind_ok in H1 as (c2 & H2 & H1). inversion H1; subst; clear H1.
    assert (K : foldM (fun c sm => update_path c (fst sm) (snd sm)) c
        (if is_mic a then map (fun s => (s, a)) (filter (fun s => negb (smem (a_name s) already)) ss)
         else map (fun m => (a, m)) (filter (fun m => negb (smem (a_name m) already)) ms)) = Ok c1
        /\ is_mic a || is_source a = true).
    { destruct (is_mic a) eqn:Qm.
      - rewrite HS in H2. simpl in H2. apply bind_ok in H2 as (c3 & H3 & H2).
        split; auto. rewrite <- (foldM_map2 (fun c sm => update_path c (fst sm) (snd sm)) (fun s => (s, a))).
        simpl. rewrite H3. destruct ss; [discriminate|auto].
      - destruct (is_source a) eqn:Qs; [|discriminate]. rewrite HM in H2. simpl in H2. split; auto.
        rewrite <- (foldM_map2 (fun c sm => update_path c (fst sm) (snd sm)) (fun m => (a, m))). auto. }
    destruct K as [K1 K2]. simpl visits. rewrite foldM_app, K1. simpl.
    destruct (update_path_fold _ _ Hi K1) as (_ & _ & _ & A & _ & _).
    destruct (same_arrays_sources A) as [E1 E2].
    destruct (IH changed c1 (already ++ [a_name a]) c' al') as [I1 I2]; auto; try congruence.
    + rewrite (sa_info A); auto.
    + intros x Hx. unfold the_array. rewrite (sa_arrays A). apply HA; simpl; auto.
    + split; auto. intros x [->|Hx]; auto.
Qed.

Lemma In_visits ss ms : forall changed already s m,
  NoDup (map (fun a => a_name a) changed) ->
  (forall a, In a changed -> is_mic a = true /\ In a ms \/ is_mic a = false /\ In a ss) ->
  (forall a, In a ss -> is_mic a = false) -> (forall a, In a ms -> is_mic a = true) ->
  (forall a b, In a (ss ++ ms) -> In b (ss ++ ms) -> a_name a = a_name b -> a = b) ->
  (forall a, In a changed -> ~ In (a_name a) already) ->
  In (s, m) (visits ss ms changed already) <->
  In s ss /\ In m ms /\ ~ In (a_name s) already /\ ~ In (a_name m) already /\ (In s changed \/ In m changed).
Proof.
  induction changed as [|a changed IH]; intros already s m HN HC HSm HMm HU HD.
  { simpl. tauto. }
  simpl in HN. inversion HN as [|x y HN1 HN2]; subst.
  assert (HNa : ~ In (a_name a) already) by (apply HD; simpl; auto).
  assert (HIH := IH (already ++ [a_name a]) s m HN2). simpl visits. rewrite in_app_iff. rewrite HIH; auto.
  2:{ intros; apply HC; simpl; auto. }
  2:{ intros b Hb Hin. apply in_app_iff in Hin as [Hin|[Hin|[]]]; [eapply HD; simpl; eauto|].
      apply HN1. apply in_map_iff. exists b; auto. }
  clear IH HIH.
  assert (E1 : forall b, In b (ss ++ ms) -> In (a_name b) (already ++ [a_name a]) <-> In (a_name b) already \/ b = a).
  { intros b Hb. rewrite in_app_iff; simpl. split; [intros [H|[H|[]]]; auto; right; apply HU; auto|intros [H|H]; subst; auto].
    destruct (HC a) as [[_ H']|[_ H']]; [simpl; auto| |]; rewrite in_app_iff; auto. }
  assert (E2 : forall s, In s ss -> (In (a_name s) (already ++ [a_name a]) <-> In (a_name s) already \/ s = a)) by (intros; apply E1; rewrite in_app_iff; auto).
  assert (E3 : forall m, In m ms -> (In (a_name m) (already ++ [a_name a]) <-> In (a_name m) already \/ m = a)) by (intros; apply E1; rewrite in_app_iff; auto).
  assert (HMS : forall b, In b ss -> In b ms -> False) by (intros b B1 B2; apply HSm in B1; apply HMm in B2; congruence).
  destruct (HC a) as [[Qm Ha]|[Qm Ha]]; [simpl; auto| |]; rewrite Qm, in_map_iff.
  - split.
    + intros [(x & Ex & Hx)|(H1 & H2 & H3 & H4 & H5)].
      * inversion Ex; subst. apply filter_In in Hx as [Hx1 Hx2]. apply Bool.negb_true_iff, smem_false in Hx2. repeat split; auto. simpl; auto.
      * rewrite E2 in H3 by auto. rewrite E3 in H4 by auto. repeat split; auto. simpl; tauto.
    + intros (H1 & H2 & H3 & H4 & H5). destruct (string_dec (a_name m) (a_name a)) as [Em|Em].
      * assert (m = a) by (apply HU; auto; rewrite in_app_iff; auto). subst. left. exists s; split; auto.
        apply filter_In; split; auto. apply Bool.negb_true_iff, smem_false; auto.
      * right. rewrite E2, E3 by auto. repeat split; auto.
        -- intros [H|H]; [auto|subst; eauto].
        -- intros [H|H]; [auto|subst; auto].
        -- simpl in H5. destruct H5 as [[H5|H5]|[H5|H5]]; subst; auto; exfalso; eauto.
  - split.
    + intros [(x & Ex & Hx)|(H1 & H2 & H3 & H4 & H5)].
      * inversion Ex; subst. apply filter_In in Hx as [Hx1 Hx2]. apply Bool.negb_true_iff, smem_false in Hx2. repeat split; auto. simpl; auto.
      * rewrite E2 in H3 by auto. rewrite E3 in H4 by auto. repeat split; auto. simpl; tauto.
    + intros (H1 & H2 & H3 & H4 & H5). destruct (string_dec (a_name s) (a_name a)) as [Em|Em].
      * assert (s = a) by (apply HU; auto; rewrite in_app_iff; auto). subst. left. exists m; split; auto.
        apply filter_In; split; auto. apply Bool.negb_true_iff, smem_false; auto.
      * right. rewrite E2, E3 by auto. repeat split; auto.
        -- intros [H|H]; [auto|subst; auto].
        -- intros [H|H]; [auto|subst; eauto].
        -- simpl in H5. destruct H5 as [[H5|H5]|[H5|H5]]; subst; auto; exfalso; eauto.
Qed.

Lemma NoDup_visits ss ms : forall changed already,
  NoDup (map (fun a => a_name a) changed) -> NoDup (map (fun a => a_name a) ss) -> NoDup (map (fun a => a_name a) ms) ->
  (forall a, In a changed -> is_mic a = true /\ In a ms \/ is_mic a = false /\ In a ss) ->
  (forall a, In a ss -> is_mic a = false) -> (forall a, In a ms -> is_mic a = true) ->
  (forall a b, In a (ss ++ ms) -> In b (ss ++ ms) -> a_name a = a_name b -> a = b) ->
  (forall a, In a changed -> ~ In (a_name a) already) ->
  NoDup (pair_names (visits ss ms changed already)).
Proof.
  induction changed as [|a changed IH]; intros already HN HS HM HC HSm HMm HU HD; simpl; [constructor|].
  simpl in HN. inversion HN as [|x y HN1 HN2]; subst.
  assert (HD' : forall b, In b changed -> ~ In (a_name b) (already ++ [a_name a])).
  { intros b Hb Hin. apply in_app_iff in Hin as [Hin|[Hin|[]]]; [eapply HD; simpl; eauto|].
    apply HN1. apply in_map_iff. exists b; auto. }
  assert (HC' : forall a, In a changed -> is_mic a = true /\ In a ms \/ is_mic a = false /\ In a ss) by (intros; apply HC; simpl; auto).
  unfold pair_names. rewrite map_app. apply NoDup_app_intro.
  - destruct (is_mic a); rewrite map_map; simpl.
    + apply NoDup_map_filter with (f := fun s => (a_name s, a_name a)).
      rewrite <- (map_map (fun s => a_name s) (fun n => (n, a_name a))). apply NoDup_map_inj; auto. intros; congruence.
    + apply NoDup_map_filter with (f := fun m => (a_name a, a_name m)).
      rewrite <- (map_map (fun s => a_name s) (fun n => (a_name a, n))). apply NoDup_map_inj; auto. intros; congruence.
  - apply IH; auto.
  - intros [sn mn] H1 H2. apply in_map_iff in H2 as ([s m] & Esm & H2). simpl in Esm. inversion Esm; subst; clear Esm.
    apply In_visits in H2 as (G1 & G2 & G3 & G4 & _); auto.
    apply in_map_iff in H1 as ([s' m'] & Esm & H1). simpl in Esm. inversion Esm; subst; clear Esm.
    destruct (is_mic a); apply in_map_iff in H1 as (z & Ez & Hz); inversion Ez; subst.
    + apply G4. rewrite in_app_iff; simpl; right; left; congruence.
    + apply G3. rewrite in_app_iff; simpl; right; left; congruence.
Qed.

Lemma update_ok c g c' i : coll_ok c -> c_info c = Some i -> update c g = Ok c' ->
  array_update_freq i <> 0 /\
  (g mod array_update_freq i <> 0 -> c' = c) /\
  (g mod array_update_freq i = 0 ->
   exists l P, NoDup (pair_names l) /\
    (forall s m, In (s, m) l <-> the_array c' (a_name s) s /\ the_array c' (a_name m) m /\
       is_source s = true /\ is_mic m = true /\ (dynamic s || dynamic m = true)) /\
    regenerate i (c_ptypes c) l (lookup2 (c_paths c)) (c_rng c) = Ok (P, c_rng c') /\
    (forall s m, lookup2 (c_paths c') s m = P s m) /\
    c_arrays c' = moved_arrays c g) /\
  c_mic c' = c_mic c /\ c_src c' = c_src c /\ c_free c' = c_free c /\ c_info c' = c_info c /\
  c_ptypes c' = c_ptypes c /\ coll_ok c'.
Proof.
  intros O Hi H. unfold update in H. rewrite Hi in H.
  destruct (Z.eqb_spec (array_update_freq i) 0); [discriminate|]. split; auto.
  destruct (Z.eqb_spec (g mod array_update_freq i) 0); simpl in H.
  2:{ inversion H; subst. repeat split; auto; try tauto; apply O. }
  apply bind_ok in H as ([c2 al] & H & Hc). simpl in Hc. inversion Hc; subst c2; clear Hc.
  fold (moved_arrays c g) in H. set (c1 := set_arrays c (moved_arrays c g)) in *.
  assert (O1 : coll_ok c1) by (apply moved_ok; auto).
  set (ss := filter is_source (map snd (c_arrays c1))). set (ms := filter is_mic (map snd (c_arrays c1))).
  assert (HS : sources c1 = Ok ss) by (apply sources_eq; auto). assert (HM : mics c1 = Ok ms) by (apply mics_eq; auto).
  set (ch := filter dynamic (map snd (c_arrays c1))).
  assert (HIn : forall (p : arr -> bool) a, In a (filter p (map snd (c_arrays c1))) <-> the_array c1 (a_name a) a /\ p a = true).
  { intros p a. rewrite filter_In, in_map_iff. unfold the_array. split.
    - intros [([k b] & Eb & Hb) Hf]. simpl in Eb; subst. split; auto.
      assert (D : dget (c_arrays c1) k = Some a) by (apply In_dget; auto; apply (ok_names O1)).
      rewrite (ok_key O1 _ D); auto.
    - intros [D Hf]. split; auto. exists (a_name a, a); split; auto. apply dget_In; auto. }
  assert (Hnames : map (fun a => a_name a) ch = map fst (filter (fun kv => dynamic (snd kv)) (c_arrays c))).
  { unfold ch, c1, moved_arrays. simpl.
    assert (HK : forall k a, In (k, a) (c_arrays c) -> a_name a = k) by (intros; apply (ok_key O); apply In_dget; auto; apply (ok_names O)).
    clear H; revert HK. induction (c_arrays c) as [|[k a] l IH]; simpl; intros HK; auto.
    unfold dynamic at 1. rewrite arr_update_traj. fold (dynamic a). destruct (dynamic a); simpl; rewrite IH; auto.
    rewrite arr_update_name. f_equal; auto. }
  destruct (@update_changed_fold i ss ms _ ch c1 [] c' al Hi HS HM Hnames) as [HF HK]; auto.
  { intros a Ha. apply HIn in Ha; tauto. }
  destruct (update_path_fold (visits ss ms ch []) c1 (i := i) Hi HF) as (P & HP & HL & A & T & K).
  assert (HU : forall a b, In a (ss ++ ms) -> In b (ss ++ ms) -> a_name a = a_name b -> a = b).
  { intros a b Ha Hb En. assert (the_array c1 (a_name a) a) by (apply in_app_iff in Ha as [Ha|Ha]; apply HIn in Ha; tauto).
    assert (the_array c1 (a_name b) b) by (apply in_app_iff in Hb as [Hb|Hb]; apply HIn in Hb; tauto).
    unfold the_array in *. rewrite En in H0. congruence. }
  assert (HCC : forall a, In a ch -> is_mic a = true /\ In a ms \/ is_mic a = false /\ In a ss).
  { intros a Ha. pose proof (HK a Ha) as Hk. apply HIn in Ha as [Ha _]. destruct (is_mic a) eqn:Qm; simpl in Hk.
    - left; split; auto. apply HIn; auto.
    - right; split; auto. apply HIn; auto. }
  assert (HSm : forall a, In a ss -> is_mic a = false).
  { intros a Ha. apply HIn in Ha as [_ Ha]. unfold is_source, is_mic in *. destruct (a_kind a); auto; discriminate. }
  assert (HMm : forall a, In a ms -> is_mic a = true) by (intros a Ha; apply HIn in Ha; tauto).
  assert (HNn : forall (p : arr -> bool), NoDup (map (fun a => a_name a) (filter p (map snd (c_arrays c1))))).
  { intros p. apply NoDup_map_filter. rewrite map_map.
    assert (HE : map (fun x => a_name (snd x)) (c_arrays c1) = dkeys (c_arrays c1)).
    { apply map_ext_in. intros [k a] Hin. simpl. apply (ok_key O1). apply In_dget; auto. apply (ok_names O1). }
    rewrite HE. apply (ok_names O1). }
  split; [tauto|]. split; [intros _|].
  - exists (visits ss ms ch []), P. split; [|split; [|split; [|split]]].
    + apply NoDup_visits; auto; apply HNn.
    + intros s m. rewrite In_visits; auto; [|apply HNn]. unfold ss, ms, ch. rewrite !HIn. unfold the_array. rewrite (sa_arrays A).
      split.
      * intros ((A1 & A2) & (A3 & A4) & _ & _ & [[_ A5]|[_ A5]]); repeat split; auto; rewrite A5; auto; apply orb_true_r.
      * intros (A1 & A2 & A3 & A4 & A5). apply orb_true_iff in A5. repeat split; auto; simpl; tauto.
    + exact HP.
    + exact HL.
    + rewrite (sa_arrays A); auto.
  - destruct A as [A1 A2 A3 A4 A5]. repeat (split; [auto|]).
    eapply (@same_arrays_ok c1); eauto; [split; auto| |].
    + intros; apply K, O1; auto.
    + rewrite T; apply O1.
Qed.

(* ---------------------------------------------------------------- reachable collections *)
Lemma set_prop_path_ok c p s m c' : set_prop_path c p s m = Ok c' ->
  In s (c_src c) /\ In m (c_mic c) /\
  (exists a b, the_array c s a /\ the_array c m b /\ p_ns p = a_num a /\ p_nm p = a_num b) /\
  same_arrays c c' /\ c_ptypes c' = c_ptypes c /\ c_rng c' = c_rng c /\
  (forall s', (exists y, dget (c_paths c) s' = Some y) -> exists y, dget (c_paths c') s' = Some y) /\
  forall s' m', lookup2 (c_paths c') s' m' = if String.eqb s' s && String.eqb m' m then Some p else lookup2 (c_paths c) s' m'.
Proof.
  unfold set_prop_path, passert. intros H.
  destruct (smem s (c_src c)) eqn:Q1; [|discriminate]. destruct (smem m (c_mic c)) eqn:Q2; [|discriminate]. cbn [bind] in H.
  apply bind_ok in H as (a & Ha & H). destruct (Z.eqb_spec (p_ns p) (a_num a)); [|discriminate]. cbn [bind] in H.
  apply bind_ok in H as (b & Hb & H). destruct (Z.eqb_spec (p_nm p) (a_num b)); [|discriminate]. cbn [bind] in H.
  apply bind_ok in H as (ps & Hp & H). inversion H; subst; clear H.
  apply smem_spec in Q1, Q2. unfold dgetE in Ha, Hb.
  destruct (dget (c_arrays c) s) eqn:D1; inversion Ha; subst. destruct (dget (c_arrays c) m) eqn:D2; inversion Hb; subst.
  apply dset2_ok in Hp as (_ & Hp & Hk & _). repeat split; eauto.
  exists a, b; repeat split; auto.
Qed.
Lemma set_prop_path_total c p s m a b : coll_ok c -> In s (c_src c) -> In m (c_mic c) ->
  the_array c s a -> the_array c m b -> p_ns p = a_num a -> p_nm p = a_num b -> exists c', set_prop_path c p s m = Ok c'.
Proof.
  intros O Hs Hm Ha Hb E1 E2. unfold set_prop_path, passert, dgetE.
  rewrite (proj2 (smem_spec _ _) Hs), (proj2 (smem_spec _ _) Hm). unfold the_array in *. rewrite Ha, Hb. cbn [bind].
  rewrite E1, E2, !Z.eqb_refl. cbn [bind].
  destruct (dset2_total (c_paths c) s m p (ok_paths O _ Hs)) as [d Hd]. rewrite Hd. simpl; eauto.
Qed.
Lemma set_path_type_ok c s m t c' : set_path_type c s m t = Ok c' ->
  In s (c_src c) /\ In m (c_mic c) /\ same_arrays c c' /\ c_paths c' = c_paths c /\ c_rng c' = c_rng c /\
  (forall s', (exists y, dget (c_ptypes c) s' = Some y) -> exists y, dget (c_ptypes c') s' = Some y) /\
  forall s' m', lookup2 (c_ptypes c') s' m' = if String.eqb s' s && String.eqb m' m then Some t else lookup2 (c_ptypes c) s' m'.
Proof.
  unfold set_path_type, passert. intros H.
  destruct (smem s (c_src c)) eqn:Q1; [|discriminate]. destruct (smem m (c_mic c)) eqn:Q2; [|discriminate]. cbn [bind] in H.
  apply bind_ok in H as (ps & Hp & H). inversion H; subst; clear H. apply smem_spec in Q1, Q2.
  apply dset2_ok in Hp as (_ & Hp & Hk & _). repeat split; eauto.
Qed.

Lemma update_info c g c' : update c g = Ok c' -> exists i, c_info c = Some i.
Proof. unfold update. destruct (c_info c); eauto; discriminate. Qed.

Lemma built_ok Q c : built Q c -> coll_ok c.
Proof.
  induction 1.
  - apply empty_coll_ok.
  - destruct (add_array_ok a IHbuilt H1); auto.
  - apply set_prop_path_ok in H0 as (_ & _ & _ & A & T & _ & K & _). eapply same_arrays_ok; eauto.
    + intros; apply K, IHbuilt; auto.
    + rewrite T; apply IHbuilt.
  - apply set_path_type_ok in H0 as (_ & _ & A & P & _ & K & _). eapply same_arrays_ok; eauto.
    + rewrite P; apply IHbuilt.
    + intros; apply K, IHbuilt; auto.
  - apply (set_default_ok _ IHbuilt H0).
  - destruct (setup_ir_ok _ IHbuilt H0) as (? & ? & _ & _ & _ & _ & _ & _ & _ & O); auto.
  - destruct (update_info _ _ H0) as [i Hi]. apply (update_ok _ IHbuilt Hi H0).
Qed.

Lemma made_shape rows i g s m t g' p : generators_shaped rows -> sized rows s -> sized rows m ->
  made_path i g s m t g' p -> p_ns p = a_num s /\ p_nm p = a_num m.
Proof.
  intros [G1 G2] [S1 _] [S2 _] (q & R & ->).
  assert (p_ns q = a_num s /\ p_nm q = a_num m).
  { destruct R; auto. apply G1 in H1 as [-> ->]; auto. }
  destruct (0 <? highpass_cutoff i); auto. destruct (G2 q (samplerate i) (highpass_cutoff i)) as [-> ->]; auto.
Qed.
Lemma regenerate_shape rows i types l : forall P g R g', generators_shaped rows ->
  regenerate i types l P g = Ok (R, g') -> NoDup (pair_names l) ->
  (forall s m, In (s, m) l -> sized rows s /\ sized rows m) ->
  forall s m p, In (s, m) l -> R (a_name s) (a_name m) = Some p -> p_ns p = a_num s /\ p_nm p = a_num m.
Proof.
  intros P g R g' HG H HN HS s m p Hin HR. destruct (@regenerate_values _ _ _ _ _ _ _ H HN) as [H1 _].
  destruct (H1 s m Hin) as (t & g1 & g2 & p' & _ & Hc & HR'). rewrite HR in HR'. inversion HR'; subst p'.
  apply create_path_made in Hc. destruct (HS _ _ Hin). eapply made_shape; eauto.
Qed.

Lemma sized_update rows (a : arr) g : sized rows a -> sized rows (arr_update a g).
Proof.
  intros [S1 S2]. unfold sized. rewrite arr_update_num, arr_update_traj. split; auto.
  unfold arr_update. destruct (a_traj a) eqn:Q; simpl; auto.
Qed.
Definition all_sized (rows : Pos -> Z) c := forall k a, the_array c k a -> sized rows a.
Definition pairs_of c (l : list (arr * arr)) := forall s m, In (s, m) l -> the_array c (a_name s) s /\ the_array c (a_name m) m.
Lemma update_all_sized rows c g c' : coll_ok c -> all_sized rows c -> update c g = Ok c' -> all_sized rows c'.
Proof.
  intros O HS H. destruct (update_info _ _ H) as [i Hi]. destruct (update_ok _ O Hi H) as (Hf & U1 & U2 & _).
  destruct (Z.eq_dec (g mod array_update_freq i) 0) as [e|e]; [|rewrite U1; auto].
  destruct (U2 e) as (_ & _ & _ & _ & _ & _ & Ha). intros k a. unfold the_array. rewrite Ha.
  unfold moved_arrays. rewrite (dget_map (fun a => arr_update a g)). destruct (dget (c_arrays c) k) eqn:D; simpl; [|discriminate].
  intros K; inversion K; subst. apply sized_update. apply (HS k); auto.
Qed.
Lemma the_array_update c g c' k a : coll_ok c -> update c g = Ok c' -> the_array c' k a ->
  exists a0, the_array c k a0 /\ a_num a = a_num a0 /\ a_kind a = a_kind a0 /\ a_source a = a_source a0 /\ (a = a0 \/ a = arr_update a0 g).
Proof.
  intros O H K. destruct (update_info _ _ H) as [i Hi]. destruct (update_ok _ O Hi H) as (Hf & U1 & U2 & _).
  destruct (Z.eq_dec (g mod array_update_freq i) 0) as [e|e]; [|rewrite U1 in K by auto; eauto 10].
  destruct (U2 e) as (_ & _ & _ & _ & _ & _ & Ha). unfold the_array in *. rewrite Ha in K.
  unfold moved_arrays in K. rewrite (dget_map (fun a => arr_update a g)) in K. destruct (dget (c_arrays c) k) eqn:D; simpl in K; [|discriminate].
  inversion K; subst. eexists; split; eauto. rewrite arr_update_num, arr_update_kind, arr_update_source; auto.
Qed.
Lemma update_shaped rows c g c' : coll_ok c -> generators_shaped rows -> all_sized rows c -> shaped c -> update c g = Ok c' -> shaped c'.
Proof.
  intros O HG HS HP H. pose proof (@update_all_sized _ _ _ _ O HS H) as HS'.
  destruct (update_info _ _ H) as [i Hi]. destruct (update_ok _ O Hi H) as (Hf & U1 & U2 & A1 & A2 & A3 & A4 & A5 & O').
  destruct (Z.eq_dec (g mod array_update_freq i) 0) as [e|e]; [|rewrite U1; auto].
  destruct (U2 e) as (l & P & HN & Hl & HR & HL & _). intros s m p a b L Is Im Ta Tb.
  destruct (@regenerate_values _ _ _ _ _ _ _ HR HN) as [_ R2]. rewrite HL in L.
  destruct (In_pair_dec (pair_names l) (s, m)) as [Hin|Hin].
  - apply in_map_iff in Hin as ([s' m'] & Esm & Hin). simpl in Esm. inversion Esm; subst.
    pose proof (proj1 (Hl _ _) Hin) as (T1 & T2 & _). unfold the_array in *. assert (s' = a) by congruence. assert (m' = b) by congruence. subst.
    eapply (@regenerate_shape rows); eauto. intros x y Hxy. apply Hl in Hxy as (X1 & X2 & _). split; eapply HS'; eauto.
  - rewrite R2 in L by auto. rewrite A2 in Is. rewrite A1 in Im.
    destruct (@the_array_update _ _ _ _ _ O H Ta) as (a0 & Ta0 & -> & _). destruct (@the_array_update _ _ _ _ _ O H Tb) as (b0 & Tb0 & -> & _).
    apply (HP s m); auto.
Qed.
Lemma setup_shaped rows c i c' : coll_ok c -> generators_shaped rows -> all_sized rows c -> shaped c -> setup_ir c i = Ok c' -> shaped c'.
Proof.
  intros O HG HS HP H. destruct (setup_ir_ok _ O H) as (cs & P & Hc & HR & HN & HL & _ & A & _ & O').
  intros s m p a b L Is Im Ta Tb.
  destruct (@regenerate_values _ _ _ _ _ _ _ HR HN) as [_ R2]. rewrite HL in L.
  unfold the_array in Ta, Tb. rewrite (sa_arrays A) in Ta, Tb. rewrite (sa_src A) in Is. rewrite (sa_mic A) in Im. simpl in *.
  destruct (combos_names O Hc) as [_ HC].
  destruct (In_pair_dec (pair_names (filter (generated c) cs)) (s, m)) as [Hin|Hin].
  - apply in_map_iff in Hin as ([s' m'] & Esm & Hin). simpl in Esm. inversion Esm; subst.
    assert (Hin' := Hin). apply filter_In in Hin' as [Hin' _]. apply HC in Hin' as (T1 & T2 & _).
    unfold the_array in *. assert (s' = a) by congruence. assert (m' = b) by congruence. subst.
    eapply (@regenerate_shape rows); eauto. intros x y Hxy. apply filter_In in Hxy as [Hxy _]. apply HC in Hxy as (X1 & X2 & _). split; eapply HS; eauto.
  - rewrite R2 in L by auto. apply (HP s m); auto.
Qed.

(** paths only exist between sources and microphones of the collection *)
Definition paths_known c := forall s m p, lookup2 (c_paths c) s m = Some p -> In s (c_src c) /\ In m (c_mic c).
Lemma regenerate_known c i types l P g R g' : coll_ok c -> regenerate i types l P g = Ok (R, g') -> NoDup (pair_names l) ->
  (forall s m, In (s, m) l -> the_array c (a_name s) s /\ the_array c (a_name m) m /\ is_source s = true /\ is_mic m = true) ->
  (forall s m p, P s m = Some p -> In s (c_src c) /\ In m (c_mic c)) ->
  forall s m p, R s m = Some p -> In s (c_src c) /\ In m (c_mic c).
Proof.
  intros O H HN Hl HP s m p HR. destruct (@regenerate_values _ _ _ _ _ _ _ H HN) as [_ R2].
  destruct (In_pair_dec (pair_names l) (s, m)) as [Hin|Hin].
  - apply in_map_iff in Hin as ([s' m'] & Esm & Hin). simpl in Esm. inversion Esm; subst.
    apply Hl in Hin as (T1 & T2 & T3 & T4). split; [apply (src_names _ O)|apply (mic_names _ O)]; eauto.
  - rewrite R2 in HR by auto. eauto.
Qed.
Lemma update_known c g c' : coll_ok c -> paths_known c -> update c g = Ok c' -> paths_known c'.
Proof.
  intros O HP H. destruct (update_info _ _ H) as [i Hi]. destruct (update_ok _ O Hi H) as (Hf & U1 & U2 & A1 & A2 & A3 & A4 & A5 & O').
  destruct (Z.eq_dec (g mod array_update_freq i) 0) as [e|e]; [|rewrite U1; auto].
  destruct (U2 e) as (l & P & HN & Hl & HR & HL & _). intros s m p L. rewrite HL in L.
  eapply (@regenerate_known c'); eauto.
  - intros x y Hxy. apply Hl in Hxy; tauto.
  - intros x y q K. rewrite A1, A2. eapply HP; eauto.
Qed.
Lemma setup_known c i c' : coll_ok c -> paths_known c -> setup_ir c i = Ok c' -> paths_known c'.
Proof.
  intros O HP H. destruct (setup_ir_ok _ O H) as (cs & P & Hc & HR & HN & HL & _ & A & _ & O').
  intros s m p L. rewrite HL in L. rewrite (sa_src A), (sa_mic A). simpl.
  destruct (combos_names O Hc) as [_ HC]. eapply (@regenerate_known c); eauto.
  intros x y Hxy. apply filter_In in Hxy as [Hxy _]. apply HC in Hxy; tauto.
Qed.

Lemma built_shaped rows (Q : arr -> Prop) c : generators_shaped rows -> (forall a, Q a -> sized rows a) -> built Q c ->
  all_sized rows c /\ shaped c /\ paths_known c.
Proof.
  intros HG HQ B. induction B.
  - split; [|split]; intros ? *; unfold the_array; simpl; try discriminate; tauto.
  - destruct IHB as (I1 & I2 & I3). pose proof (built_ok B) as O.
    destruct (add_array_ok a O H0) as (O' & D & Ha & Hk & Hm & Hs & _ & _ & _ & Lp & _ & Lp0).
    assert (T : forall k b, the_array c' k b -> the_array c k b \/ k = a_name a /\ b = a).
    { unfold the_array. rewrite Ha. intros k b Hb. apply dget_In, in_app_iff in Hb as [Hb|[Hb|[]]].
      - left. apply In_dget; auto. apply (ok_names O).
      - inversion Hb; auto. }
    assert (K : forall s m p, lookup2 (c_paths c') s m = Some p -> In s (c_src c') -> lookup2 (c_paths c) s m = Some p).
    { intros s m p L Is. destruct (string_dec s (a_name a)) as [->|Ns]; [|rewrite Lp in L; auto].
      exfalso. rewrite Hs in Is. apply in_app_iff in Is as [Is|Is].
      - apply (src_names _ O) in Is as (z & Hz & _). unfold the_array in Hz. congruence.
      - destruct (is_source a) eqn:Qs; [|destruct Is]. destruct (Lp0 eq_refl m) as [L' _]. congruence. }
    split; [|split].
    + intros k b Hb. apply T in Hb as [Hb|[_ ->]]; auto. apply (I1 k); auto.
    + intros s m p x y L Is Im Tx Ty. apply K in L; auto. destruct (I3 _ _ _ L) as [Is' Im'].
      apply (I2 s m p x y); auto.
      * destruct (T _ _ Tx) as [|[-> _]]; auto. exfalso. apply (src_names _ O) in Is' as (z & Hz & _). unfold the_array in Hz. congruence.
      * destruct (T _ _ Ty) as [|[-> _]]; auto. exfalso. apply (mic_names _ O) in Im' as (z & Hz & _). unfold the_array in Hz. congruence.
    + intros s m p L. destruct (string_dec s (a_name a)) as [->|Ns].
      * destruct (is_source a) eqn:Qs. { destruct (Lp0 eq_refl m) as [L' _]. congruence. }
        exfalso. unfold add_array in H0. rewrite Qs in H0. destruct (dmem _ _); [discriminate|]. destruct (is_mic a); [|discriminate].
        inversion H0; subst. simpl in L. apply I3 in L as [L _]. apply (src_names _ O) in L as (z & Hz & _). unfold the_array in Hz. congruence.
      * rewrite Lp in L by auto. apply I3 in L as [L1 L2]. rewrite Hs, Hm, !in_app_iff; auto.
  - destruct IHB as (I1 & I2 & I3). apply set_prop_path_ok in H as (Hs & Hm & (a & b & Ta & Tb & E1 & E2) & A & _ & _ & _ & L).
    assert (TA : forall k x, the_array c' k x <-> the_array c k x) by (unfold the_array; rewrite (sa_arrays A); tauto).
    split; [|split].
    + intros k x Hx. apply TA in Hx. apply (I1 k); auto.
    + intros s' m' p' x y L' Is Im Tx Ty. rewrite L in L'. apply TA in Tx, Ty. rewrite (sa_src A) in Is. rewrite (sa_mic A) in Im.
      destruct (String.eqb_spec s' s), (String.eqb_spec m' m); simpl in L'; subst; try (apply (I2 _ _ _ _ _ L'); auto; fail).
      inversion L'; subst. unfold the_array in *. split; congruence.
    + intros s' m' p' L'. rewrite L in L'. rewrite (sa_src A), (sa_mic A).
      destruct (String.eqb_spec s' s), (String.eqb_spec m' m); simpl in L'; subst; auto; apply (I3 _ _ _ L').
  - destruct IHB as (I1 & I2 & I3). apply set_path_type_ok in H as (_ & _ & A & P & _).
    split; [|split].
    + intros k x Hx. unfold the_array in Hx. rewrite (sa_arrays A) in Hx. apply (I1 k); auto.
    + unfold shaped, the_array in *. rewrite P, (sa_src A), (sa_mic A), (sa_arrays A); auto.
    + unfold paths_known. rewrite P, (sa_src A), (sa_mic A); auto.
  - destruct IHB as (I1 & I2 & I3). destruct (set_default_ok _ (built_ok B) H) as (_ & A & P & _).
    split; [|split].
    + intros k x Hx. unfold the_array in Hx. rewrite (sa_arrays A) in Hx. apply (I1 k); auto.
    + unfold shaped, the_array in *. rewrite P, (sa_src A), (sa_mic A), (sa_arrays A); auto.
    + unfold paths_known. rewrite P, (sa_src A), (sa_mic A); auto.
  - destruct IHB as (I1 & I2 & I3). pose proof (built_ok B) as O. split; [|split].
    + destruct (setup_ir_ok _ O H) as (_ & _ & _ & _ & _ & _ & _ & A & _). intros k x Hx. unfold the_array in Hx.
      rewrite (sa_arrays A) in Hx. apply (I1 k); auto.
    + eapply setup_shaped; eauto.
    + eapply setup_known; eauto.
  - destruct IHB as (I1 & I2 & I3). pose proof (built_ok B) as O. split; [|split].
    + eapply update_all_sized; eauto.
    + eapply update_shaped; eauto.
    + eapply update_known; eauto.
Qed.
End Paths.
