(** Properties of saved sessions: C42, C43, C44, C61, C62. *)
From Coq Require Import Permutation.
Require Import Verif.PyBase Verif.PyLemmas Verif.ConfigModel Verif.ArrayModel Verif.ArraySpec Verif.ArrayProofs Verif.ArrayPaths Verif.ArrayProps Verif.FileModel Verif.FileProps Verif.SessionModel Verif.Demo.
Set Implicit Arguments.
Local Open Scope string_scope.
Local Open Scope list_scope.
Local Open Scope Z_scope.

Section Props.
Context {E : AEnv}.
Notation arr := (arr Pos Src).
Notation coll := (coll E).
Context (pos_close : Pos -> Pos -> res bool) (vclose : V -> V -> bool).

(** Two paths with the same shape and the same entries in it *)
Definition same_response (p q : path V) : Prop :=
  p_ns p = p_ns q /\ p_nm p = p_nm q /\ p_len p = p_len q /\
  forall s m k, 0 <= s < p_ns p -> 0 <= m < p_nm p -> 0 <= k < p_len p -> p_at p s m k = p_at q s m k.
(** [c] is what create_simulator makes of the collection [c0] for the configuration [i], before any path is computed *)
Definition prepared (i : info) (c0 c : coll) : Prop := (exists Q, built Q c0) /\ set_default_path_type c0 (reverb i) = Ok c.

(* ------------------------------------------------------------------ lemmas about the comparison *)
Lemma all_true_inv {A} (f : A -> res bool) l : all_true f l = Ok true -> forall x, In x l -> f x = Ok true.
Proof.
  induction l as [|y l IH]; cbn [all_true]; intros H x Hx; [destruct Hx|]. apply bind_ok in H as (b & H1 & H2). destruct b; [|discriminate]. destruct Hx as [->|Hx]; auto.
Qed.
Lemma all_true_intro {A} (f : A -> res bool) l : (forall x, In x l -> f x = Ok true) -> all_true f l = Ok true.
Proof. induction l as [|y l IH]; cbn [all_true]; intros H; auto. rewrite H by (left; auto). cbn [bind]. apply IH. intros; apply H; right; auto. Qed.
Lemma same_keys_spec {A B} (a : dict A) (b : dict B) : same_keys a b = true <-> forall k, In k (dkeys a) <-> In k (dkeys b).
Proof.
  unfold same_keys. rewrite andb_true_iff, !forallb_forall. split.
  - intros [H1 H2] k. split; intros H; apply smem_spec; auto.
  - intros H. split; intros k Hk; apply smem_spec; apply H; auto.
Qed.
Lemma kind_eqb_eq a b : kind_eqb a b = true <-> a = b.
Proof. destruct a, b; simpl; split; congruence. Qed.
Lemma prototype_equals_inv c d : coll_ok c -> coll_ok d -> prototype_equals pos_close vclose c d = Ok true ->
  (forall k, (exists a, the_array c k a) <-> exists b, the_array d k b) /\
  (forall k a b, the_array c k a -> the_array d k b -> a_kind a = a_kind b /\ a_num a = a_num b /\ pos_close (a_pos a) (a_pos b) = Ok true) /\
  (forall s m, In s (c_src c) -> In m (c_mic c) -> exists t, lookup2 (c_ptypes c) s m = Some t /\ lookup2 (c_ptypes d) s m = Some t /\
     (t = "modified" -> exists p q, lookup2 (c_paths c) s m = Some p /\ lookup2 (c_paths d) s m = Some q /\ allclose_path vclose p q = Ok true)).
Proof.
  intros O O' H. unfold prototype_equals in H. destruct (same_keys (c_arrays c) (c_arrays d)) eqn:QK; [|discriminate]. cbn [negb] in H.
  apply bind_ok in H as (b & H1 & H2). destruct b; [|discriminate]. cbn [negb] in H2. apply bind_ok in H2 as (cs & Hc & H2).
  pose proof (all_true_inv _ _ H1) as HA. pose proof (all_true_inv _ _ H2) as HP. clear H1 H2. rewrite same_keys_spec in QK.
  assert (KA : forall (x : coll) k, In k (dkeys (c_arrays x)) <-> exists a, the_array x k a).
  { intros x k. unfold the_array. split.
    - intros Hk. destruct (dget (c_arrays x) k) eqn:Q; [eauto|]. apply dget_None in Q. contradiction.
    - intros [a Ha]. destruct (in_dec string_dec k (dkeys (c_arrays x))); auto. apply dget_None in n. congruence. }
  split; [|split].
  - intros k. rewrite <- !KA. apply QK.
  - intros k a b Ha Hb. assert (Hin : In (k, a) (c_arrays c)) by (apply dget_In; auto). specialize (HA _ Hin). unfold same_array in HA. cbn [fst snd] in HA. unfold dgetE in HA. unfold the_array in Hb. rewrite Hb in HA. cbn [bind] in HA.
    destruct (kind_eqb (a_kind a) (a_kind b)) eqn:Q1; [|discriminate]. cbn [negb] in HA. destruct (Z.eqb_spec (a_num a) (a_num b)); [|discriminate]. cbn [negb] in HA. apply kind_eqb_eq in Q1. auto.
  - intros s m Hs Hm. destruct (combos_names O Hc) as [_ HC]. pose proof Hs as Hs'. pose proof Hm as Hm'. apply (src_names _ O) in Hs' as (a & Ha & Ka). apply (mic_names _ O) in Hm' as (b & Hb & Kb).
    assert (En : a_name a = s) by (apply (ok_key O); auto). assert (Em : a_name b = m) by (apply (ok_key O); auto).
    assert (Hin : In (a, b) cs) by (apply HC; rewrite En, Em; auto). specialize (HP _ Hin). unfold same_path_type in HP. cbn [fst snd] in HP. rewrite En, Em in HP.
    apply bind_ok in HP as (t & Ht & HP). apply dget2E_lookup2 in Ht. exists t. split; auto. apply bind_ok in HP as (ok & Hok & HP). destruct ok; [|discriminate]. cbn [negb] in HP. apply bind_ok in HP as (t' & Ht' & HP). apply dget2E_lookup2 in Ht'. injection HP as HP. apply String.eqb_eq in HP. subst t'. split; auto.
    intros ->. rewrite String.eqb_refl in Hok. apply bind_ok in Hok as (p & Hp & Hok). apply bind_ok in Hok as (q & Hq & Hok). apply dget2E_lookup2 in Hp, Hq. eauto.
Qed.

(* ------------------------------------------------------------------ C42 *)
Lemma listZ_eqb_eq a : forall b, listZ_eqb a b = true -> a = b.
Proof. induction a as [|x a IH]; intros [|y b] H; cbn in H; try discriminate; auto. apply andb_true_iff in H as [H1 H2]. apply Z.eqb_eq in H1. f_equal; auto. Qed.
Lemma equal_audio_inv i j types : equal_audio i j types = true ->
  samplerate i = samplerate j /\ c_sound i = c_sound j /\ spatial_dims i = spatial_dims j /\ reverb i = reverb j /\
  ((exists s m, lookup2 types s m = Some "ism") -> rir_params i = rir_params j /\ highpass_cutoff i = highpass_cutoff j).
Proof.
  unfold equal_audio. intros H. match type of H with (if ?x then _ else _) = _ => remember x as b eqn:Eb end.
  assert (K : (samplerate i =? samplerate j) && (c_sound i =? c_sound j) && (spatial_dims i =? spatial_dims j) && String.eqb (reverb i) (reverb j) = true) by (destruct b; [rewrite !andb_true_iff in H; rewrite !andb_true_iff; tauto|exact H]).
  rewrite !andb_true_iff in K. destruct K as (((K1 & K2) & K3) & K4). apply Z.eqb_eq in K1, K2, K3. apply String.eqb_eq in K4. do 4 (split; [auto|]). intros (s & m & Hsm).
  assert (Hb : b = true). { unfold lookup2 in Hsm. destruct (dget types s) as [d|] eqn:Q; [|discriminate]. apply dget_In in Q. apply dget_In in Hsm. rewrite Eb. apply existsb_exists. exists (s, d). split; auto. apply existsb_exists. exists (m, "ism"). split; auto. }
  rewrite Hb in H. rewrite !andb_true_iff in H. destruct H as (((((((_ & E1) & E2) & E3) & E4) & E5) & E6) & E7). apply listZ_eqb_eq in E1, E2. apply Z.eqb_eq in E3, E4, E6, E7. apply eqb_prop in E5. split; [unfold rir_params; congruence|auto].
Qed.
Lemma create_path_same i j g g' (a b a' b' : arr) t h p h' p' : t <> "random" -> a_num a = a_num a' -> a_num b = a_num b' -> a_pos a = a_pos a' -> a_pos b = a_pos b' ->
  samplerate i = samplerate j -> highpass_cutoff i = highpass_cutoff j -> (t = "ism" -> rir_params i = rir_params j) -> randomized_ism i = false ->
  (forall par g g' s m h p h' p', rp_random par = false -> ism3d par g s m = Ok (h, p) -> ism3d par g' s m = Ok (h', p') -> p = p') ->
  create_path i g a b t = Ok (h, p) -> create_path j g' a' b' t = Ok (h', p') -> p = p'.
Proof.
  intros Hr N1 N2 P1 P2 S1 S2 S3 HR D H H'. unfold create_path in H, H'. apply bind_ok in H as ([h1 p1] & H & X). apply bind_ok in H' as ([h2 p2] & H' & X'). cbn [fst snd] in *. injection X as <- <-. injection X' as <- <-. rewrite <- S1, <- S2.
  assert (EP : p1 = p2); [|rewrite EP; auto].
  destruct (String.eqb_spec t "none"); [inversion H; inversion H'; congruence|].
  destruct (String.eqb_spec t "direct"); [apply bind_ok in H as (u & _ & H); apply bind_ok in H' as (u' & _ & H'); inversion H; inversion H'; congruence|].
  destruct (String.eqb_spec t "random"); [contradiction|]. destruct (String.eqb_spec t "ism"); [|discriminate].
  destruct (spatial_dims i =? 3); [|discriminate]. destruct (spatial_dims j =? 3); [|discriminate]. destruct (existsb _ (a_dirs b)); [discriminate|]. destruct (existsb _ (a_dirs b')); [discriminate|].
  rewrite <- S3, <- P1, <- P2 in H' by auto. eapply (D (rir_params i)); [exact HR|exact H|exact H'].
Qed.
Lemma allclose_same p q : (forall x y, vclose x y = true -> x = y) -> p_ns p = p_ns q -> p_nm p = p_nm q -> p_len p = p_len q -> allclose_path vclose p q = Ok true -> same_response p q.
Proof.
  intros HV E1 E2 E3 H. unfold allclose_path, bcast in H. rewrite E1, E2, E3, !Z.eqb_refl in H. cbn [bind] in H. injection H as H. rewrite <- E1, <- E2, <- E3 in H. split; auto. split; auto. split; auto. intros s m k Hs Hm Hk.
  rewrite forallb_forall in H. specialize (H s (proj2 (In_zrange _ _ _) Hs)). rewrite forallb_forall in H. specialize (H m (proj2 (In_zrange _ _ _) Hm)). rewrite forallb_forall in H. specialize (H k (proj2 (In_zrange _ _ _) Hk)).
  assert (B : forall n i, 0 <= i < n -> bidx n i = i) by (intros n i Hi; unfold bidx; destruct (Z.eqb_spec n 1); lia). rewrite !B in H by auto. auto.
Qed.
(** C42: if the search accepts a stored session, computing the paths afresh gives the stored ones, provided that
    - positions and given paths that count as close are equal and given paths have the stored length (otherwise they are only close),
    - no path is of type "random" and the image source method is used without randomisation,
    - if no path is of type "ism", the high-pass filter is configured in the same way. *)
Theorem C42_paths_partial i c0 c stored_i s0 s stored fresh :
  prepared i c0 c -> prepared stored_i s0 s -> setup_ir s stored_i = Ok stored -> setup_ir c i = Ok fresh ->
  session_matches pos_close vclose i c (Full stored_i) (Full stored) = Ok true ->
  (forall p q, pos_close p q = Ok true -> p = q) -> (forall x y, vclose x y = true -> x = y) ->
  (forall a b p q, lookup2 (c_paths c) a b = Some p -> lookup2 (c_paths s) a b = Some q -> p_ns p = p_ns q /\ p_nm p = p_nm q /\ p_len p = p_len q) ->
  (forall a b, lookup2 (c_ptypes c) a b <> Some "random") ->
  randomized_ism i = false ->
  (forall par g g' a b h p h' p', rp_random par = false -> ism3d par g a b = Ok (h, p) -> ism3d par g' a b = Ok (h', p') -> p = p') ->
  ((forall a b, lookup2 (c_ptypes c) a b <> Some "ism") -> highpass_cutoff i = highpass_cutoff stored_i) ->
  forall a b, In a (c_src c) -> In b (c_mic c) ->
    exists p q, lookup2 (c_paths fresh) a b = Some p /\ lookup2 (c_paths stored) a b = Some q /\ same_response p q.
Proof.
  intros [[Q B0] Hd] [[Q' B0'] Hd'] HS HF HM HP HV HL HRnd HR HD HH a b Ha Hb.
  pose proof (built_default (reverb i) B0 Hd) as B. pose proof (built_default (reverb stored_i) B0' Hd') as B'. pose proof (built_ok B) as O. pose proof (built_ok B') as O'.
  destruct (setup_ir_ok _ O' HS) as (cs' & P' & Hc' & HR' & HN' & HL' & _ & A' & T' & Os). destruct (setup_ir_ok _ O HF) as (cs & P & Hc & HRg & HN & HLf & _ & A & T & Of).
  unfold session_matches in HM. apply bind_ok in HM as (j & Hj & HM). cbn [load_config] in Hj. assert (j = stored_i) by (unfold info_post_init, passert in Hj; repeat (destruct (_ : bool); cbn [bind] in Hj; [|discriminate]); inversion Hj; auto). subst j. cbn [load_arrays bind] in HM.
  destruct (equal_audio i stored_i (c_ptypes c)) eqn:QE; [|discriminate]. destruct (equal_audio_inv _ _ _ QE) as (Q1 & Q2 & Q3 & Q4 & Q5). destruct (prototype_equals_inv O Os HM) as (K1 & K2 & K3).
  destruct (K3 a b Ha Hb) as (t & Ht & Hts & Hmod).
  pose proof Ha as Ha1. pose proof Hb as Hb1. apply (src_names _ O) in Ha1 as (x & Hx & Kx). apply (mic_names _ O) in Hb1 as (y & Hy & Ky).
  assert (En : a_name x = a) by (apply (ok_key O); auto). assert (Em : a_name y = b) by (apply (ok_key O); auto).
  destruct (proj1 (K1 a) (ex_intro _ x Hx)) as (x' & Hx'). destruct (proj1 (K1 b) (ex_intro _ y Hy)) as (y' & Hy'). destruct (K2 _ _ _ Hx Hx') as (X1 & X2 & X3). destruct (K2 _ _ _ Hy Hy') as (Y1 & Y2 & Y3).
  assert (Hx'' : the_array s a x') by (unfold the_array in *; rewrite (sa_arrays A') in Hx'; exact Hx'). assert (Hy'' : the_array s b y') by (unfold the_array in *; rewrite (sa_arrays A') in Hy'; exact Hy').
  assert (En' : a_name x' = a) by (apply (ok_key O'); auto). assert (Em' : a_name y' = b) by (apply (ok_key O'); auto).
  assert (Kx' : is_source x' = true) by (unfold is_source in *; rewrite <- X1; auto). assert (Ky' : is_mic y' = true) by (unfold is_mic in *; rewrite <- Y1; auto). rewrite T' in Hts.
  destruct (regenerate_values _ _ _ _ _ HRg HN) as [R1 R2]. destruct (regenerate_values _ _ _ _ _ HR' HN') as [R1' R2'].
  destruct (combos_names O Hc) as [_ HC]. destruct (combos_names O' Hc') as [_ HC'].
  destruct (String.eqb_spec t "modified") as [->|Hnm].
  - destruct (Hmod eq_refl) as (p & q & Hp & Hq & Hpq). exists p, q. split; [|split; auto].
    + rewrite HLf. rewrite R2; auto. intros Hin. apply in_map_iff in Hin as ([x1 y1] & Exy & Hin). cbn in Exy. apply filter_In in Hin as [_ Hg]. unfold generated in Hg. cbn [fst snd] in Hg. injection Exy as <- <-. rewrite Ht in Hg. discriminate Hg.
    + assert (Hq2 : lookup2 (c_paths s) a b = Some q). { rewrite HL' in Hq. rewrite R2' in Hq; auto. intros Hin. apply in_map_iff in Hin as ([x1 y1] & Exy & Hin). cbn in Exy. apply filter_In in Hin as [_ Hg]. unfold generated in Hg. cbn [fst snd] in Hg. injection Exy as <- <-. rewrite Hts in Hg. discriminate Hg. }
      destruct (HL a b p q Hp Hq2) as (L1 & L2 & L3). apply allclose_same; auto.
  - destruct (R1 x y) as (t1 & g1 & g2 & p & Ht1 & Hcp & HPp). { apply filter_In. split; [apply HC; rewrite En, Em; auto|]. unfold generated. cbn [fst snd]. rewrite En, Em, Ht. apply negb_true_iff, String.eqb_neq. auto. }
    destruct (R1' x' y') as (t2 & g3 & g4 & q & Ht2 & Hcq & HPq). { apply filter_In. split; [apply HC'; rewrite En', Em'; auto|]. unfold generated. cbn [fst snd]. rewrite En', Em', Hts. apply negb_true_iff, String.eqb_neq. auto. }
    rewrite En, Em in Ht1, HPp. rewrite En', Em' in Ht2, HPq. assert (t1 = t) by congruence. assert (t2 = t) by congruence. subst t1 t2. exists p, q. rewrite HLf, HL'. split; auto. split; auto.
    assert (p = q) as ->; [|repeat split; auto].
    refine (@create_path_same _ _ _ _ _ _ _ _ _ _ _ _ _ _ X2 Y2 (HP _ _ X3) (HP _ _ Y3) Q1 _ _ HR HD Hcp Hcq).
    + intros ->. exact (HRnd a b Ht).
    + destruct (String.eqb_spec t "ism") as [->|Hni]; [apply Q5; eauto|].
      destruct (existsb (fun src => existsb (fun u => String.eqb "ism" (snd u)) (snd src)) (c_ptypes c)) eqn:QX.
      * unfold equal_audio in QE. rewrite QX in QE. rewrite !andb_true_iff in QE. destruct QE as (_ & E7). apply Z.eqb_eq in E7. auto.
      * apply HH. intros s1 m1 Hl. unfold lookup2 in Hl. destruct (dget (c_ptypes c) s1) as [d|] eqn:Qd; [|discriminate]. apply dget_In in Qd, Hl. apply not_true_iff_false in QX. apply QX. apply existsb_exists. exists (s1, d). split; auto. apply existsb_exists. exists (m1, "ism"). split; auto.
    + intros ->. apply Q5. eauto.
Qed.

(* ------------------------------------------------------------------ C43 *)
(** np.allclose accepts equal numbers (it does not accept NaN) and fails only for arrays whose shapes do not fit *)
Definition numbers : Prop := (forall p, pos_close p p = Ok true) /\ (forall x, vclose x x = true).
Definition only_shape_errors : Prop := forall p q e, pos_close p q = Err e -> e = ValueError.
(** the pairs marked as given by the user have a path *)
Definition given_paths (c : coll) : Prop := forall s m, lookup2 (c_ptypes c) s m = Some "modified" -> lookup2 (c_paths c) s m <> None.

Lemma allclose_refl p : (forall x, vclose x x = true) -> allclose_path vclose p p = Ok true.
Proof.
  intros H. unfold allclose_path, bcast. rewrite !Z.eqb_refl. cbn [bind]. f_equal. apply forallb_forall. intros. apply forallb_forall. intros. apply forallb_forall. intros. apply H.
Qed.
Lemma equal_audio_refl i t : equal_audio i i t = true.
Proof.
  assert (L : forall l, listZ_eqb l l = true) by (induction l as [|x l IH]; cbn; auto; rewrite Z.eqb_refl, IH; auto).
  unfold equal_audio. rewrite !Z.eqb_refl, String.eqb_refl, eqb_reflx, !L. destruct (existsb _ _); auto.
Qed.
Lemma prototype_equals_self i c0 c c2 : prepared i c0 c -> given_paths c -> numbers -> setup_ir c i = Ok c2 -> prototype_equals pos_close vclose c c2 = Ok true.
Proof.
  intros [[Q B0] Hd] HG [HP HV] HS. pose proof (built_ok B0) as O0. pose proof (built_ok (built_default (reverb i) B0 Hd)) as O.
  destruct (setup_ir_ok _ O HS) as (cs & P & Hc & HR & HN & HL & _ & A & T & O2). destruct (regenerate_values _ _ _ _ _ HR HN) as [_ R2].
  destruct (set_default_ok _ O0 Hd) as (_ & A0 & _ & _ & HT).
  unfold prototype_equals. rewrite (sa_arrays A). cbn [c_arrays set_info].
  assert (QK : same_keys (c_arrays c) (c_arrays c) = true) by (apply same_keys_spec; tauto). rewrite QK. cbn [negb].
  rewrite (all_true_intro (same_array pos_close c2) (c_arrays c)).
  2:{ intros [k a] Hin. unfold same_array. cbn [fst snd]. assert (Hk : dget (c_arrays c) k = Some a) by (apply In_dget; auto; apply O).
      unfold dgetE. rewrite (sa_arrays A). cbn [c_arrays set_info]. rewrite Hk. cbn [bind]. assert (K : kind_eqb (a_kind a) (a_kind a) = true) by (apply kind_eqb_eq; auto). rewrite K, Z.eqb_refl. cbn [negb]. apply HP. }
  cbn [bind negb]. rewrite Hc. cbn [bind]. apply all_true_intro. intros [a b] Hin. unfold same_path_type. cbn [fst snd].
  destruct (combos_names O Hc) as [HNm _].
  assert (Hab : In (a_name a) (c_src c) /\ In (a_name b) (c_mic c)). { apply in_prod_iff. rewrite <- HNm. apply in_map_iff. exists (a, b); auto. }
  destruct Hab as [Ha Hb].
  assert (Ht : exists t, lookup2 (c_ptypes c) (a_name a) (a_name b) = Some t).
  { rewrite HT. rewrite <- (sa_src A0), <- (sa_mic A0). assert (S1 : smem (a_name a) (c_src c) = true) by (apply smem_spec; auto). assert (S2 : smem (a_name b) (c_mic c) = true) by (apply smem_spec; auto). rewrite S1, S2. cbn [andb]. eauto. }
  destruct Ht as [t Ht]. assert (D2 : forall X (d : dict (dict X)) x y v, lookup2 d x y = Some v -> dget2E d x y = Ok v).
  { intros X d x y v. unfold lookup2, dget2E, dgetE. destruct (dget d x); [|discriminate]. intros K. cbn [bind]. rewrite K. auto. }
  rewrite T. rewrite (D2 _ _ _ _ _ Ht). cbn [bind]. destruct (String.eqb_spec t "modified") as [->|Hm].
  - destruct (lookup2 (c_paths c) (a_name a) (a_name b)) as [p|] eqn:Qp; [|destruct (HG _ _ Ht Qp)]. rewrite (D2 _ _ _ _ _ Qp). cbn [bind].
    assert (Qp2 : lookup2 (c_paths c2) (a_name a) (a_name b) = Some p).
    { rewrite HL, R2; auto. intros Hi. apply in_map_iff in Hi as ([x1 y1] & Exy & Hi). cbn in Exy. apply filter_In in Hi as [_ Hg]. unfold generated in Hg. cbn [fst snd] in Hg. injection Exy as E1 E2. rewrite E1, E2, Ht in Hg. discriminate Hg. }
    rewrite (D2 _ _ _ _ _ Qp2). cbn [bind]. rewrite allclose_refl by auto. cbn [bind negb]. rewrite String.eqb_refl. auto.
  - cbn [bind negb]. rewrite String.eqb_refl. auto.
Qed.

(** [e] is an entry that the search can compare with the present setup *)
Definition comparable (i : info) (c : coll) (e : entry E) : Prop :=
  match e with EFile => True | EDir config arrays => exists b, session_matches pos_close vclose i c config arrays = Ok b end.
Definition accepted (i : info) (c : coll) (e : entry E) : Prop :=
  match e with EFile => False | EDir config arrays => session_matches pos_close vclose i c config arrays = Ok true end.
Lemma search_finds i c f : (forall n e, In (n, e) f -> comparable i c e) -> (exists n e, In (n, e) f /\ accepted i c e) ->
  exists n e, search pos_close vclose f i c = Ok n /\ In (n, e) f /\ accepted i c e.
Proof.
  induction f as [|[n e] f IH]; intros HC (n0 & e0 & Hin & HA); [destruct Hin|].
  assert (IH' : (exists n e, In (n, e) f /\ accepted i c e) -> exists n1 e1, search pos_close vclose f i c = Ok n1 /\ In (n1, e1) ((n, e) :: f) /\ accepted i c e1).
  { intros K. destruct IH as (n1 & e1 & H1 & H2 & H3); auto. { intros; eapply HC; right; eauto. } exists n1, e1. split; auto. split; auto. right; auto. }
  destruct e as [|cfg ars]; cbn [search].
  - apply IH'. destruct Hin as [Hin|Hin]; [inversion Hin; subst; destruct HA|eauto].
  - destruct (HC n (EDir cfg ars)) as [b Hb]; [left; auto|]. cbn [search]. rewrite Hb. cbn [bind]. destruct b.
    + exists n, (EDir cfg ars). split; auto. split; [left; auto|exact Hb].
    + apply IH'. destruct Hin as [Hin|Hin]; [|eauto]. inversion Hin; subst. cbn [accepted] in HA. congruence.
Qed.
Lemma search_only i c f n : search pos_close vclose f i c = Ok n -> exists e, In (n, e) f /\ accepted i c e.
Proof.
  induction f as [|[k [|cfg ars]] f IH]; cbn [search]; intros H; [discriminate| |].
  - destruct (IH H) as (e & H1 & H2). exists e; split; auto; right; auto.
  - apply bind_ok in H as (b & Hb & H). destruct b; [inversion H; subst; exists (EDir cfg ars); split; [left; auto|exact Hb]|]. destruct (IH H) as (e & H1 & H2). exists e; split; auto; right; auto.
Qed.
Lemma all_true_err {A} (f : A -> res bool) l e : all_true f l = Err e -> exists x, In x l /\ f x = Err e.
Proof.
  induction l as [|x l IH]; cbn [all_true]; intros H; [discriminate|]. destruct (f x) as [b|e'] eqn:Q; cbn [bind] in H.
  - destruct b; [|discriminate]. destruct (IH H) as (y & H1 & H2). exists y; split; auto; right; auto.
  - inversion H; subst. exists x; split; auto; left; auto.
Qed.
Lemma dgetE_err {A} (d : dict A) k e : dgetE d k = Err e -> e = KeyError.
Proof. unfold dgetE. destruct (dget d k); congruence. Qed.
Lemma dget2E_err {A} (d : dict (dict A)) k m e : dget2E d k m = Err e -> e = KeyError.
Proof. unfold dget2E. destruct (dgetE d k) eqn:Q; cbn [bind]; [apply dgetE_err|]. intros H; inversion H; subst. apply (dgetE_err _ _ Q). Qed.
Lemma combos_err c e : mic_src_combos (E := E) c = Err e -> e = KeyError.
Proof.
  unfold mic_src_combos. generalize (list_prod (c_src c) (c_mic c)). induction l as [|[s m] l IH]; cbn [mapM fst snd]; intros H; [discriminate|].
  destruct (dgetE (c_arrays c) s) eqn:Q1; cbn [bind] in H; [|inversion H; subst; apply (dgetE_err _ _ Q1)]. destruct (dgetE (c_arrays c) m) eqn:Q2; cbn [bind] in H; [|inversion H; subst; apply (dgetE_err _ _ Q2)].
  destruct (mapM _ l) eqn:Q3; cbn [bind] in H; [discriminate|]. inversion H; subst. auto.
Qed.
Lemma allclose_err p q e : allclose_path vclose p q = Err e -> e = ValueError.
Proof.
  assert (K : forall a b e', bcast a b = Err e' -> e' = ValueError) by (intros a b e'; unfold bcast; destruct (a =? b), (a =? 1), (b =? 1); congruence).
  unfold allclose_path. intros H. destruct (bcast (p_ns p) (p_ns q)) eqn:Q1; cbn [bind] in H; [|inversion H; subst; eapply K; eauto]. destruct (bcast (p_nm p) (p_nm q)) eqn:Q2; cbn [bind] in H; [|inversion H; subst; eapply K; eauto].
  destruct (bcast (p_len p) (p_len q)) eqn:Q3; cbn [bind] in H; [discriminate|inversion H; subst; eapply K; eauto].
Qed.
Lemma matches_err i c config arrays e : only_shape_errors -> session_matches pos_close vclose i c config arrays = Err e -> e <> MatchingSessionNotFoundError.
Proof.
  intros HP H. unfold session_matches in H. destruct (load_config config) as [j|e1] eqn:Q1; cbn [bind] in H.
  2:{ inversion H; subst. destruct config; cbn [load_config] in Q1; try congruence. unfold info_post_init, passert in Q1. repeat (destruct (_ : bool); cbn [bind] in Q1; [|congruence]). discriminate. }
  destruct (load_arrays arrays) as [d|e1] eqn:Q2; cbn [bind] in H. 2:{ destruct arrays; cbn [load_arrays] in Q2; congruence. }
  destruct (equal_audio i j (c_ptypes c)); [|discriminate]. unfold prototype_equals in H. destruct (negb (same_keys _ _)); [discriminate|].
  destruct (all_true (same_array pos_close d) (c_arrays c)) as [b|e1] eqn:Q3; cbn [bind] in H.
  2:{ inversion H; subst. apply all_true_err in Q3 as ([k a] & _ & Q3). unfold same_array in Q3. cbn [fst snd] in Q3. destruct (dgetE (c_arrays d) k) eqn:Q4; cbn [bind] in Q3; [|apply dgetE_err in Q4; congruence].
      destruct (negb (kind_eqb _ _)); [discriminate|]. destruct (negb (_ =? _)); [discriminate|]. apply HP in Q3. congruence. }
  destruct (negb b); [discriminate|]. destruct (mic_src_combos c) as [cs|e1] eqn:Q5; cbn [bind] in H; [|apply combos_err in Q5; congruence].
  apply all_true_err in H as ([x y] & _ & H). unfold same_path_type in H. cbn [fst snd] in H.
  destruct (dget2E (c_ptypes c) _ _) as [t|e1] eqn:Q6; cbn [bind] in H; [|apply dget2E_err in Q6; congruence].
  match type of H with (_ <- ?r ;; _) = _ => destruct r as [ok|e1] eqn:Q7 end; cbn [bind] in H.
  - destruct (negb ok); [discriminate|]. destruct (dget2E (c_ptypes d) _ _) eqn:Q8; cbn [bind] in H; [discriminate|]. apply dget2E_err in Q8; congruence.
  - inversion H; subst. destruct (String.eqb t "modified"); [|discriminate]. destruct (dget2E (c_paths c) _ _) as [p|e1] eqn:Q8; cbn [bind] in Q7; [|apply dget2E_err in Q8; congruence].
    destruct (dget2E (c_paths d) _ _) as [q|e1] eqn:Q9; cbn [bind] in Q7; [|apply dget2E_err in Q9; congruence]. apply allclose_err in Q7. congruence.
Qed.
Lemma search_none i c f : only_shape_errors -> search pos_close vclose f i c = Err MatchingSessionNotFoundError ->
  forall n config arrays, In (n, EDir config arrays) f -> session_matches pos_close vclose i c config arrays = Ok false.
Proof.
  intros HP. induction f as [|[k [|cfg ars]] f IH]; cbn [search]; intros H n config arrays Hin; [destruct Hin| |].
  - destruct Hin as [Hin|Hin]; [discriminate|eauto].
  - destruct (session_matches pos_close vclose i c cfg ars) as [b|e] eqn:Q; cbn [bind] in H; [|inversion H; subst; destruct (matches_err _ _ _ _ HP Q eq_refl)].
    destruct b; [discriminate|]. destruct Hin as [Hin|Hin]; [inversion Hin; subst; auto|eauto].
Qed.

(** C43: whenever a saved session of this setup is among the stored sessions and every stored session can be compared with the setup, the
    search succeeds, and what it returns has been accepted by the comparison. *)
Theorem C43_found i c0 c c2 f name : prepared i c0 c -> info_post_init i = Ok i -> given_paths c -> numbers -> setup_ir c i = Ok c2 ->
  In (name, EDir (Full i) (Full c2)) f -> (forall n e, In (n, e) f -> comparable i c e) ->
  exists n e, search pos_close vclose f i c = Ok n /\ In (n, e) f /\ accepted i c e.
Proof.
  intros HP HI HG HN HS Hin HC. apply search_finds; auto. exists name, (EDir (Full i) (Full c2)). split; auto. cbn [accepted]. unfold session_matches. cbn [load_config load_arrays bind]. rewrite HI. cbn [bind]. rewrite equal_audio_refl. eapply prototype_equals_self; eauto.
Qed.

Lemma free_source_names c fs : coll_ok c -> free_sources c = Ok fs -> map (@a_name _ _) fs = c_free c /\ forall a, In a fs -> the_array c (a_name a) a.
Proof.
  intros O. unfold free_sources, lookup_all. generalize (c_free c). intros l. revert fs. induction l as [|n l IH]; cbn [mapM]; intros fs H; [inversion H; subst; split; [auto|intros a []]|].
  apply bind_ok in H as (a & Ha & H). apply bind_ok in H as (r & Hr & H). injection H as <-. unfold dgetE in Ha. destruct (dget (c_arrays c) n) eqn:Q; [|discriminate]. injection Ha as ->. pose proof (ok_key O _ Q) as Ek. destruct (IH _ Hr) as [I1 I2]. cbn [map]. split; [congruence|].
  intros b [->|Hb]; auto. unfold the_array. rewrite Ek. auto.
Qed.
Definition new_sources (fs : list arr) (l : coll) : res coll :=
  foldM (fun loaded fs => a <- dgetE (c_arrays loaded) (a_name fs) ;;
    Ok (set_arrays loaded (dset (c_arrays loaded) (a_name fs) (with_source a (a_source fs))))) l fs.
Lemma new_sources_same fs : forall l, (forall a, In a fs -> the_array l (a_name a) a) -> new_sources fs l = Ok l.
Proof.
  induction fs as [|a fs IH]; intros l H; auto. unfold new_sources. cbn [foldM]. pose proof (H a (or_introl eq_refl)) as Ha. unfold the_array in Ha. unfold dgetE. rewrite Ha. cbn [bind].
  replace (with_source a (a_source a)) with a by (destruct a; auto). rewrite dset_id by auto. replace (set_arrays l (c_arrays l)) with l by (destruct l; auto). apply IH. intros; apply H; right; auto.
Qed.
Lemma new_sources_spec fs : forall l l', NoDup (map (@a_name _ _) fs) -> new_sources fs l = Ok l' ->
  c_mic l' = c_mic l /\ c_src l' = c_src l /\ c_free l' = c_free l /\ c_paths l' = c_paths l /\ c_ptypes l' = c_ptypes l /\ c_info l' = c_info l /\ dkeys (c_arrays l') = dkeys (c_arrays l) /\
  (forall k, ~ In k (map (@a_name _ _) fs) -> dget (c_arrays l') k = dget (c_arrays l) k) /\
  (forall a, In a fs -> exists b, dget (c_arrays l) (a_name a) = Some b /\ dget (c_arrays l') (a_name a) = Some (with_source b (a_source a))).
Proof.
  induction fs as [|a fs IH]; intros l l' HN H.
  - unfold new_sources in H. cbn [foldM] in H. injection H as <-. do 8 (split; [auto|]). intros a [].
  - unfold new_sources in H. cbn [foldM] in H. apply bind_ok in H as (l1 & H1 & H). apply bind_ok in H1 as (b & Hb & H1). injection H1 as <-. unfold dgetE in Hb. destruct (dget (c_arrays l) (a_name a)) as [b'|] eqn:Q; [|discriminate]. injection Hb as ->.
    cbn [map] in HN. inversion HN as [|? ? N1 N2]; subst. apply IH in H; auto. cbn [c_mic c_src c_free c_paths c_ptypes c_info c_arrays set_arrays] in H. destruct H as (E1 & E2 & E3 & E4 & E5 & E6 & E7 & E8 & E9).
    do 6 (split; [auto|]). split; [rewrite E7; eapply dkeys_dset_mem; eauto|]. split.
    + intros k Hk. cbn [map] in Hk. rewrite E8 by (intros K; apply Hk; right; auto). apply dget_dset_other. intros ->. apply Hk. left; auto.
    + intros x [<-|Hx].
      * exists b. split; auto. rewrite E8 by auto. apply dget_dset_same.
      * destruct (E9 x Hx) as (y & Hy & Hy'). exists y. split; auto. rewrite dget_dset_other in Hy; auto. intros K. apply N1. rewrite <- K. apply in_map. auto.
Qed.
(** C43: a loaded session consists of the stored arrays, paths and path types, with the present sources in the free source arrays. *)
Theorem C43_sources i c0 c f l : prepared i c0 c -> NoDup (dkeys f) -> load_session pos_close vclose f i c = Ok l ->
  exists n config st, In (n, EDir config (Full st)) f /\ accepted i c (EDir config (Full st)) /\
    c_mic l = c_mic st /\ c_src l = c_src st /\ c_free l = c_free st /\ c_paths l = c_paths st /\ c_ptypes l = c_ptypes st /\ c_info l = c_info st /\
    dkeys (c_arrays l) = dkeys (c_arrays st) /\
    (forall k a, the_array c k a -> is_free a = false -> dget (c_arrays l) k = dget (c_arrays st) k) /\
    (forall k a, the_array c k a -> is_free a = true -> exists b b', the_array st k b /\ the_array l k b' /\ a_source b' = a_source a /\
       a_name b' = a_name b /\ a_kind b' = a_kind b /\ a_num b' = a_num b /\ a_pos b' = a_pos b /\ a_traj b' = a_traj b /\ a_dirs b' = a_dirs b).
Proof.
  intros [[Q B0] Hd] HN H. pose proof (built_ok (built_default (reverb i) B0 Hd)) as O.
  unfold load_session in H. apply bind_ok in H as (n & Hs & H). apply bind_ok in H as (e & He & H). apply bind_ok in H as (st & Hl & H). apply bind_ok in H as (fs & Hf & H). apply bind_ok in H as (l1 & Hn & H). injection H as <-.
  destruct (search_only _ _ _ Hs) as (e' & Hin & HA). unfold dgetE in He. destruct (dget f n) as [e0|] eqn:Qn; [|discriminate]. injection He as ->. assert (e' = e) by (apply In_dget in Hin; [congruence|auto]). subst e'.
  destruct e as [|config ars]; [discriminate|]. destruct ars as [| |st']; try discriminate. cbn [load_arrays] in Hl. injection Hl as ->.
  destruct (free_source_names O Hf) as [F1 F2]. fold (new_sources fs st) in Hn.
  assert (NF : NoDup (map (@a_name _ _) fs)). { rewrite F1, (ok_free O). apply NoDup_map_filter. apply O. }
  destruct (new_sources_spec _ _ NF Hn) as (E1 & E2 & E3 & E4 & E5 & E6 & E7 & E8 & E9).
  exists n, config, st. split; auto. split; auto. unfold set_rng. cbn [c_mic c_src c_free c_paths c_ptypes c_info c_arrays]. do 7 (split; [auto|]).
  assert (HF : forall k a, the_array c k a -> (In k (c_free c) <-> is_free a = true)).
  { intros k a Hk. rewrite (ok_free O), in_map_iff. split.
    - intros ([k' a'] & Ek & Hin'). cbn in Ek. subst k'. apply filter_In in Hin' as [Hin' Hf']. apply In_dget in Hin'; [|apply O]. unfold the_array in Hk. cbn in Hf'. congruence.
    - intros Hfr. exists (k, a). split; auto. apply filter_In. split; auto. apply dget_In. exact Hk. }
  split.
  - intros k a Hk Hfr. apply E8. rewrite F1. intros K. apply (HF _ _ Hk) in K. congruence.
  - intros k a Hk Hfr. assert (K : In k (map (@a_name _ _) fs)) by (rewrite F1; apply (HF _ _ Hk); auto). apply in_map_iff in K as (a' & Ea & Ha'). pose proof (F2 _ Ha') as Ta. rewrite Ea in Ta. assert (a' = a) by (unfold the_array in *; congruence). subst a'.
    destruct (E9 _ Ha') as (b & Hb & Hb'). rewrite Ea in Hb, Hb'. exists b, (with_source b (a_source a)). do 2 (split; [auto|]). unfold with_source. cbn. repeat (split; auto).
Qed.

Lemma given_paths_default i c0 c : prepared i c0 c -> info_post_init i = Ok i -> given_paths c0 -> given_paths c.
Proof.
  intros [[Q B0] Hd] HI HG s m H. destruct (set_default_ok _ (built_ok B0) Hd) as (_ & _ & P & _ & HT). rewrite P. rewrite HT in H. destruct (smem s (c_src c0) && smem m (c_mic c0)); [|auto].
  unfold resolved in H. destruct (lookup2 (c_paths c0) s m) eqn:QP; [discriminate|]. exfalso. destruct (lookup2 (c_ptypes c0) s m) eqn:QT.
  - injection H as ->. apply (HG _ _ QT QP).
  - injection H as H. unfold info_post_init in HI. rewrite H in HI. unfold passert in HI. destruct (zlen (room_size i) =? spatial_dims i), (zlen (room_center i) =? spatial_dims i); discriminate HI.
Qed.
Lemma new_sources_err fs : forall l e, new_sources fs l = Err e -> e = KeyError.
Proof.
  induction fs as [|a fs IH]; intros l e H; [discriminate H|]. unfold new_sources in H. cbn [foldM] in H. destruct (dgetE (c_arrays l) (a_name a)) as [b|e'] eqn:Q; cbn [bind] in H; [apply (IH _ _ H)|]. apply dgetE_err in Q. congruence.
Qed.
Lemma lookup_all_err (c : coll) ns : forall e, lookup_all c ns = Err e -> e = KeyError.
Proof.
  unfold lookup_all. induction ns as [|n ns IH]; cbn [mapM]; intros e H; [discriminate|]. destruct (dgetE (c_arrays c) n) as [b|e'] eqn:Q; cbn [bind] in H; [|apply dgetE_err in Q; congruence].
  destruct (mapM _ ns) as [r|e'] eqn:Q2; cbn [bind] in H; [discriminate|]. injection H as ->. auto.
Qed.
(** what create_simulator does when it saves a session *)
Lemma create_saved t f i c0 states c2 : only_shape_errors -> create_simulator pos_close vclose t (Some f) i c0 = (states, Ok c2) -> (1 < length states)%nat ->
  auto_save_load i = true /\ exists c n, set_default_path_type c0 (reverb i) = Ok c /\ search pos_close vclose f i c = Err MatchingSessionNotFoundError /\ setup_ir c i = Ok c2 /\ ~ In n (dkeys f) /\
    (c_arrays c0 <> []) /\
    states = [f; f ++ [(n, EDir Missing Missing)]; f ++ [(n, EDir Missing Partial)]; f ++ [(n, EDir Missing (Full c2))]; f ++ [(n, EDir Partial (Full c2))]; f ++ [(n, EDir (Full i) (Full c2))]].
Proof.
  intros HP H HL. unfold create_simulator in H.
  match type of H with match ?r with Ok _ => _ | Err _ => _ end = _ => destruct r as [c|e] eqn:Q0 end; [|inversion H; subst]. 
  apply bind_ok in Q0 as (u & Hu & Hc).
  assert (HE : c_arrays c0 <> []) by (intros K; rewrite K in Hu; discriminate Hu).
  destruct (auto_save_load i); [|inversion H; subst; cbn in HL; lia]. split; auto.
  destruct (load_session pos_close vclose f i c) as [l|e] eqn:Q1; [inversion H; subst; cbn in HL; lia|].
  assert (QS : e = MatchingSessionNotFoundError -> search pos_close vclose f i c = Err MatchingSessionNotFoundError).
  { intros ->. unfold load_session in Q1. destruct (search pos_close vclose f i c) as [n|e] eqn:Qs; cbn [bind] in Q1; [|inversion Q1; auto]. exfalso.
    destruct (dgetE f n) as [en|e] eqn:Q2; cbn [bind] in Q1; [|apply dgetE_err in Q2; congruence].
    destruct (match en with EFile => _ | EDir _ a => _ end) as [ld|e] eqn:Q3; cbn [bind] in Q1. 2:{ destruct en as [|? [| |]]; cbn in Q3; congruence. }
    destruct (free_sources c) as [fs|e] eqn:Q4; cbn [bind] in Q1.
    - fold (new_sources fs ld) in Q1. destruct (new_sources fs ld) as [l1|e] eqn:Q5; cbn [bind] in Q1; [discriminate|]. apply new_sources_err in Q5. congruence.
    - apply lookup_all_err in Q4. congruence. }
  assert (He : e = MatchingSessionNotFoundError) by (destruct e; auto; inversion H; subst).
  specialize (QS He). subst e. destruct (setup_ir c i) as [c2'|e] eqn:Q2; [|inversion H; subst; cbn in HL; lia].
  unfold save_session in H. destruct (C34_unique "session_" t (dkeys f)) as (m & Hm & Hnew & _). rewrite Hm in H. cbn [bind] in H. injection H as <- <-.
  exists c, (folder "session_" t m). do 5 (split; [auto|]). apply dget_None in Hnew. rewrite !dset_new by auto. auto.
Qed.

(** C43: creating a simulator for the same setup after a session has been saved loads that session, whatever the order in which the folder
    is listed; the result is the saved collection (only the random state is the present one).  So the second simulation runs on the same
    arrays and paths as the first one. *)
Theorem C43_again i c0 f t states c2 g t' : (exists Q, built Q c0) -> info_post_init i = Ok i -> NoDup (dkeys f) -> given_paths c0 -> numbers -> only_shape_errors ->
  create_simulator pos_close vclose t (Some f) i c0 = (states, Ok c2) -> (1 < length states)%nat -> Permutation g (last states f) ->
  create_simulator pos_close vclose t' (Some g) i c0 = ([g], Ok (set_rng c2 (c_rng c0))).
Proof.
  intros HB HI HN HG HNum HP H HL Hg. destruct (@create_saved _ _ _ _ _ _ HP H HL) as (HA & c & n & Hc & Hs & H2 & Hnew & HE & ->). clear H HL. cbn [last] in Hg.
  assert (Pr : prepared i c0 c) by (split; auto). pose proof (given_paths_default Pr HI HG) as HG'.
  assert (Hm : session_matches pos_close vclose i c (Full i) (Full c2) = Ok true). { unfold session_matches. cbn [load_config load_arrays]. rewrite HI. cbn [bind]. rewrite equal_audio_refl. eapply prototype_equals_self; eauto. }
  pose proof (search_none _ _ _ HP Hs) as HF.
  assert (HNg : NoDup (dkeys g)). { unfold dkeys in *. eapply Permutation_NoDup; [apply Permutation_map; apply Permutation_sym; exact Hg|]. rewrite map_app. cbn [map]. apply (Permutation_NoDup (l := n :: map fst f)); [apply Permutation_cons_append|constructor; auto]. }
  assert (Hin : In (n, EDir (Full i) (Full c2)) g) by (eapply Permutation_in; [apply Permutation_sym; exact Hg|apply in_or_app; right; left; auto]).
  assert (Hcase : forall k e, In (k, e) g -> In (k, e) f \/ (k, e) = (n, EDir (Full i) (Full c2))). { intros k e Hk. apply (Permutation_in _ Hg) in Hk. apply in_app_or in Hk as [Hk|[Hk|[]]]; auto. }
  destruct (@search_finds i c g) as (n' & e & S1 & S2 & S3).
  { intros k e Hk. destruct (Hcase _ _ Hk) as [K|K]; [|inversion K; subst; exists true; auto]. destruct e as [|cf ar]; cbn [comparable]; auto. exists false. eapply HF; eauto. }
  { exists n, (EDir (Full i) (Full c2)). split; auto. }
  assert (n' = n /\ e = EDir (Full i) (Full c2)) as [-> ->]. { destruct (Hcase _ _ S2) as [K|K]; [|inversion K; auto]. destruct e as [|cf ar]; cbn [accepted] in S3; [destruct S3|]. rewrite (HF _ _ _ K) in S3. discriminate. }
  assert (O : coll_ok c) by (destruct HB as [Q B]; apply (built_ok (built_default (reverb i) B Hc))).
  destruct (setup_ir_ok _ O H2) as (cs & P & _ & _ & _ & _ & _ & A & _ & _).
  unfold create_simulator. rewrite Hc. destruct (c_arrays c0) as [|x0 r0] eqn:QE; [congruence|]. cbn [negb passert bind]. rewrite HA.
  unfold load_session. rewrite S1. cbn [bind]. unfold dgetE at 1. rewrite (@In_dget _ _ _ _ HNg S2). cbn [bind load_arrays].
  assert (Hf : exists fs, free_sources c = Ok fs). { unfold free_sources. rewrite (ok_free O). rewrite lookup_names by apply O. eauto. }
  destruct Hf as [fs Hf]. rewrite Hf. cbn [bind]. fold (new_sources fs c2). rewrite new_sources_same.
  - cbn [bind]. destruct HB as [Q B]. destruct (set_default_ok _ (built_ok B) Hc) as (_ & _ & _ & R & _). rewrite R. auto.
  - intros a Ha. unfold the_array. rewrite (sa_arrays A). apply (proj2 (free_source_names O Hf)). auto.
Qed.

(* ------------------------------------------------------------------ C44 *)
(** C44: if the program stops while a session is being saved, every later attempt to create the same simulator with this folder fails, however the
    folder is listed, unless it stopped before the folder was made or after both files were complete. *)
Theorem C44_refuted i c0 f t states c2 k st g t' : (exists Q, built Q c0) -> only_shape_errors ->
  create_simulator pos_close vclose t (Some f) i c0 = (states, Ok c2) -> (1 < length states)%nat -> nth_error states k = Some st -> (0 < k < 5)%nat -> Permutation g st ->
  exists e, create_simulator pos_close vclose t' (Some g) i c0 = ([g], Err e) /\ (e = FileNotFoundError \/ e = TypeError).
Proof.
  intros HB HP H HL Hk Hk5 Hg. destruct (@create_saved _ _ _ _ _ _ HP H HL) as (HA & c & n & Hc & Hs & H2 & Hnew & HE & ->). clear H HL.
  pose proof (search_none _ _ _ HP Hs) as HF.
  assert (Hst : exists cf ar e, st = f ++ [(n, EDir cf ar)] /\ load_config cf = Err e /\ (e = FileNotFoundError \/ e = TypeError)).
  { destruct k as [|[|[|[|[|k]]]]]; try lia; cbn in Hk; injection Hk as <-; eexists _, _, _; (split; [reflexivity|]; split; [reflexivity|]; auto). }
  destruct Hst as (cf & ar & e & -> & He & Hee). exists e. split; auto.
  assert (Hsr : search pos_close vclose g i c = Err e).
  { assert (Hin : In (n, EDir cf ar) g) by (eapply Permutation_in; [apply Permutation_sym; exact Hg|apply in_or_app; right; left; auto]).
    assert (Hcase : forall k e, In (k, e) g -> In (k, e) f \/ (k, e) = (n, EDir cf ar)). { intros k0 e0 Hk0. apply (Permutation_in _ Hg) in Hk0. apply in_app_or in Hk0 as [Hk0|[Hk0|[]]]; auto. }
    assert (Hm : session_matches pos_close vclose i c cf ar = Err e) by (unfold session_matches; rewrite He; auto).
    clear Hg. induction g as [|[x [|cf' ar']] g IH]; [destruct Hin| |].
    - cbn [search]. apply IH. { destruct Hin as [Hin|Hin]; [discriminate|auto]. } intros; apply Hcase; right; auto.
    - cbn [search]. destruct (Hcase x (EDir cf' ar') (or_introl eq_refl)) as [K|K].
      + rewrite (HF _ _ _ K). cbn [bind]. apply IH. 2:{ intros; apply Hcase; right; auto. } destruct Hin as [Hin|Hin]; auto. injection Hin as -> -> ->. rewrite (HF _ _ _ K) in Hm. discriminate.
      + injection K as -> -> ->. rewrite Hm. auto. }
  unfold create_simulator. rewrite Hc. destruct (c_arrays c0) as [|x0 r0] eqn:QE; [congruence|]. cbn [negb passert bind]. rewrite HA. unfold load_session. rewrite Hsr. cbn [bind]. destruct Hee as [-> | ->]; auto.
Qed.
(** C44, the harmless moments: before the folder is made nothing has changed, and after the last write the session is complete *)
Theorem C44_ends_partial i c0 f t states c2 st t' : (exists Q, built Q c0) -> info_post_init i = Ok i -> NoDup (dkeys f) -> given_paths c0 -> numbers -> only_shape_errors ->
  create_simulator pos_close vclose t (Some f) i c0 = (states, Ok c2) -> (1 < length states)%nat -> nth_error states 0 = Some st \/ nth_error states 5 = Some st ->
  exists later l, create_simulator pos_close vclose t' (Some st) i c0 = (later, Ok l) /\ c_paths l = c_paths c2 /\ c_arrays l = c_arrays c2 /\ c_ptypes l = c_ptypes c2.
Proof.
  intros HB HI HN HG HNum HP H HL Hst. destruct (@create_saved _ _ _ _ _ _ HP H HL) as (HA & c & n & Hc & Hs & H2 & Hnew & HE & Est). destruct Hst as [Hst|Hst].
  - rewrite Est in Hst. injection Hst as <-. unfold create_simulator. rewrite Hc. destruct (c_arrays c0) as [|x0 r0] eqn:QE; [congruence|]. cbn [negb passert bind]. rewrite HA. unfold load_session. rewrite Hs. cbn [bind]. rewrite H2.
    unfold save_session. destruct (C34_unique "session_" t' (dkeys f)) as (m & Hm & _ & _). rewrite Hm. cbn [bind]. eexists _, _. split; [reflexivity|auto].
  - exists [st], (set_rng c2 (c_rng c0)). split; [|auto]. eapply C43_again; eauto. rewrite Est in *. injection Hst as <-. cbn [last]. apply Permutation_refl.
Qed.

(* ------------------------------------------------------------------ C62 *)
(** C62: without a figure folder, loading a saved session from its path gives the saved configuration and arrays; with one it always fails. *)
Theorem C62_load i c : info_post_init i = Ok i -> load_from_path (E := E) (EDir (Full i) (Full c)) false = Ok (i, c).
Proof. intros H. cbn. rewrite H. auto. Qed.
(** A path that is no folder, a folder without arrays or configuration, and files that were not completely written are refused. *)
Theorem C62_incomplete (config : file info) (arrays : file coll) new_folder : 
  load_from_path (E := E) EFile new_folder = Err FileNotFoundError /\ load_from_path (EDir config Missing) new_folder = Err FileNotFoundError /\
  load_from_path (EDir config Partial) new_folder = Err EOFError /\
  (forall c, arrays = Full c -> load_from_path (EDir Missing arrays) new_folder = Err FileNotFoundError /\ load_from_path (EDir Partial arrays) new_folder = Err TypeError).
Proof. repeat split; intros; subst; reflexivity. Qed.
Theorem C62_load_refuted (e : entry E) : exists x, load_from_path e true = Err x.
Proof.
  destruct e as [|cf ar]; cbn [load_from_path]; [eauto|]. destruct (load_arrays ar); cbn [bind]; [|eauto]. destruct (load_config cf); cbn [bind]; eauto.
Qed.
(** C63: a simulator created from a loaded setup has the stored paths, whatever the configuration is now: every path counts as given by
    the user. *)
Theorem C63_paths i j c0 c st c' fresh : prepared i c0 c -> given_paths c -> setup_ir c i = Ok st ->
  set_default_path_type st (reverb j) = Ok c' -> setup_ir c' j = Ok fresh ->
  (forall s m, lookup2 (c_paths fresh) s m = lookup2 (c_paths st) s m) /\ (forall s m, In s (c_src c) -> In m (c_mic c) -> lookup2 (c_ptypes fresh) s m = Some "modified").
Proof.
  intros Pr HGp HS Hd HF. pose proof Pr as [[Q B0] Hd0]. pose proof (built_ok (built_default (reverb i) B0 Hd0)) as Oc.
  destruct (setup_ir_ok _ Oc HS) as (cs0 & R0 & Hc0 & HR0 & HN0 & HL0 & _ & A0 & T0 & O). destruct (regenerate_values _ _ _ _ _ HR0 HN0) as [S1 S2].
  assert (HG : forall s m, In s (c_src st) -> In m (c_mic st) -> lookup2 (c_paths st) s m <> None).
  { intros s m Hs Hm. rewrite (sa_src A0) in Hs. rewrite (sa_mic A0) in Hm. cbn [set_info c_src c_mic] in Hs, Hm. rewrite HL0. pose proof Hs as Hs1. pose proof Hm as Hm1. apply (src_names _ Oc) in Hs1 as (a & Ha & Ka). apply (mic_names _ Oc) in Hm1 as (b & Hb & Kb).
    assert (En : a_name a = s) by (apply (ok_key Oc); auto). assert (Em : a_name b = m) by (apply (ok_key Oc); auto).
    destruct (In_pair_dec (pair_names (filter (generated c) cs0)) (s, m)) as [Hi|Hi].
    - apply in_map_iff in Hi as ([x y] & Exy & Hi). cbn in Exy. destruct (S1 _ _ Hi) as (t & g1 & g2 & p & _ & _ & Hp). injection Exy as <- <-. rewrite Hp. discriminate.
    - rewrite S2 by auto. destruct (combos_names Oc Hc0) as [_ HC]. destruct (set_default_ok _ (built_ok B0) Hd0) as (_ & Ad & _ & _ & HT). assert (Ht : exists t, lookup2 (c_ptypes c) s m = Some t). { rewrite HT. rewrite <- (sa_src Ad), <- (sa_mic Ad). assert (X1 : smem s (c_src c) = true) by (apply smem_spec; auto). assert (X2 : smem m (c_mic c) = true) by (apply smem_spec; auto). rewrite X1, X2. cbn [andb]. eauto. }
      destruct Ht as [t Ht]. destruct (String.eqb_spec t "modified") as [->|Ht2]; [exact (HGp _ _ Ht)|]. exfalso. apply Hi. apply in_map_iff. exists (a, b). cbn [fst snd]. split; [congruence|]. apply filter_In. split; [apply HC; rewrite En, Em; auto|]. unfold generated. cbn [fst snd]. rewrite En, Em, Ht. apply negb_true_iff, String.eqb_neq. auto. }
  destruct (set_default_ok _ O Hd) as (O' & A & P & _ & HT). destruct (setup_ir_ok _ O' HF) as (cs & R & Hc & HR & HN & HL & _ & A2 & T & _). destruct (regenerate_values _ _ _ _ _ HR HN) as [_ R2].
  assert (HM : forall s m, In s (c_src st) -> In m (c_mic st) -> lookup2 (c_ptypes c') s m = Some "modified").
  { intros s m Hs Hm. rewrite HT. assert (X1 : smem s (c_src st) = true) by (apply smem_spec; auto). assert (X2 : smem m (c_mic st) = true) by (apply smem_spec; auto). rewrite X1, X2. cbn [andb]. unfold resolved. destruct (lookup2 (c_paths st) s m) eqn:QL; auto. destruct (HG _ _ Hs Hm QL). }
  split.
  - intros s m. rewrite HL, R2; [rewrite P; auto|]. intros Hi. apply in_map_iff in Hi as ([x1 y1] & Exy & Hi). cbn in Exy. apply filter_In in Hi as [Hi Hg]. unfold generated in Hg. cbn [fst snd] in Hg. destruct (combos_names O' Hc) as [HNm _].
    assert (Hab : In (a_name x1) (c_src c') /\ In (a_name y1) (c_mic c')). { apply in_prod_iff. rewrite <- HNm. apply in_map_iff. exists (x1, y1); auto. }
    rewrite (sa_src A), (sa_mic A) in Hab. rewrite HM in Hg by tauto. discriminate Hg.
  - intros s m Hs Hm. rewrite T. apply HM; [rewrite (sa_src A0)|rewrite (sa_mic A0)]; auto.
Qed.
(** C63: so a loaded setup with a moving array cannot be simulated: the first update of the positions fails. *)
Theorem C63_moving_refuted (Q : arr -> Prop) i j c0 c st c' fresh g s m a b : built Q c0 -> set_default_path_type c0 (reverb i) = Ok c -> given_paths c -> setup_ir c i = Ok st ->
  set_default_path_type st (reverb j) = Ok c' -> setup_ir c' j = Ok fresh ->
  the_array fresh s a -> the_array fresh m b -> is_source a = true -> is_mic b = true -> a_traj a <> None \/ a_traj b <> None -> g mod array_update_freq j = 0 ->
  forall after, update fresh g <> Ok after.
Proof.
  intros B Hd HG HS Hd' HF Ha Hb Ka Kb Hm Hg after. assert (Pr : prepared i c0 c) by (split; eauto).
  destruct (C63_paths _ Pr HG HS Hd' HF) as [_ HT].
  pose proof (built_default (reverb i) B Hd) as B1. pose proof (built_setup i B1 HS) as B2. pose proof (built_default (reverb j) B2 Hd') as B3. pose proof (built_setup j B3 HF) as B4.
  destruct (setup_ir_ok _ (built_ok B3) HF) as (_ & _ & _ & _ & _ & _ & Hi & A3 & _ & O4).
  destruct (setup_ir_ok _ (built_ok B1) HS) as (_ & _ & _ & _ & _ & _ & _ & A1 & _ & _). destruct (set_default_ok _ (built_ok B2) Hd') as (_ & A2 & _).
  assert (Hs1 : In s (c_src fresh)) by (apply (src_names _ O4); eauto). assert (Hm1 : In m (c_mic fresh)) by (apply (mic_names _ O4); eauto).
  assert (Hs2 : In s (c_src c)) by (rewrite (sa_src A3) in Hs1; cbn [set_info c_src] in Hs1; rewrite (sa_src A2), (sa_src A1) in Hs1; exact Hs1).
  assert (Hm2 : In m (c_mic c)) by (rewrite (sa_mic A3) in Hm1; cbn [set_info c_mic] in Hm1; rewrite (sa_mic A2), (sa_mic A1) in Hm1; exact Hm1).
  refine (@C40_user_path_must_not_move E Q fresh g j s m a b after B4 Hi Hg Hs1 Hm1 Ha Hb Hm (HT _ _ Hs2 Hm2)).
Qed.
End Props.

(* ------------------------------------------------------------------ examples and refutations *)
Section Examples.
(** the demonstration world with a filter that changes what it filters *)
Definition demo_filter : AEnv :=
  {| V := Z; v0 := 0; v1 := 1; vadd := Z.add; vmul := Z.mul; Pos := Z; Src := Z; src_get := @src_get demo; G := Z; np_normal := @np_normal demo; ism3d := @ism3d demo;
     filter_rirs := fun p sr f => mkPath (p_ns p) (p_nm p) (p_len p) (fun s m k => f * p_at p s m k) |}.
Existing Instance demo_filter.
Definition pclose (p q : Pos) : res bool := Ok (p =? q).
Definition zclose (x y : V) : bool := x =? y.
Example ex_numbers : numbers pclose zclose /\ only_shape_errors pclose.
Proof. split; [split; [intros p; unfold pclose; rewrite Z.eqb_refl; auto|intros x; apply Z.eqb_refl]|intros p q e H; discriminate H]. Qed.
Example ex_exact : (forall p q, pclose p q = Ok true -> p = q) /\ (forall x y, zclose x y = true -> x = y).
Proof. split; [intros p q H; injection H as H; apply Z.eqb_eq in H; auto|intros x y H; apply Z.eqb_eq in H; auto]. Qed.

Definition ar (n : string) (k : kind) (p : Z) (tr : option (Z -> Z)) (src : Z) : arr Pos Src :=
  mkArr n k 1 (p : Pos) (tr : option (Z -> Pos)) ["omni"] (Some (src : Src)) [] [].
(** a setup: arrays, given paths, given types *)
Definition setup (l : list (arr Pos Src)) (ps : list (string * string * path V)) (ts : list (string * string * string)) : res (coll demo_filter) :=
  c <- add_all (empty_coll (0 : G)) l ;;
  c <- foldM (fun c x => set_prop_path c (snd x) (fst (fst x)) (snd (fst x))) c ps ;;
  foldM (fun c x => set_path_type c (fst (fst x)) (snd (fst x)) (snd x)) c ts.
Lemma setup_built l ps ts c : setup l ps ts = Ok c -> built (fun _ => True) c.
Proof.
  unfold setup. intros H. apply bind_ok in H as (c0 & H0 & H). apply bind_ok in H as (c1 & H1 & H).
  assert (K0 : built (fun _ => True) c0). { revert H0. generalize (@built_empty demo_filter (fun _ => True) 0). generalize (@empty_coll demo_filter 0). unfold add_all. clear. induction l as [|a l IH]; cbn [foldM]; intros c B H; [inversion H; subst; auto|].
    apply bind_ok in H as (c5 & H5 & H). destruct (add_array c a) as [c6 [u|]] eqn:Q; inversion H5; subst. apply (IH c5); auto. eapply built_add; eauto. }
  assert (K1 : built (fun _ => True) c1). { revert H1. revert K0. generalize c0. clear. induction ps as [|x ps IH]; cbn [foldM]; intros c B H; [inversion H; subst; auto|]. apply bind_ok in H as (c5 & H5 & H). apply (IH c5); auto. eapply built_path; eauto. }
  revert H. revert K1. generalize c1. clear. induction ts as [|x ts IH]; cbn [foldM]; intros c1 B H; [inversion H; subst; auto|]. apply bind_ok in H as (c5 & H5 & H). apply (IH c5); auto. eapply built_type; eauto.
Qed.
Definition inf (auto_save : bool) (rv : string) (len cutoff freq : Z) : info :=
  mkInfo 12 10 5 false true freq 100 343 3 rv [1; 1; 1] [0; 0; 0] 1 len false 0 cutoff 6 "pdf" 1 auto_save.
(** create a simulator with an empty session folder; the folder afterwards *)
Definition after_saving (i : info) (c : coll demo_filter) : sessions demo_filter := last (fst (create_simulator pclose zclose "today" (Some []) i c)) [].
Definition created (f : option (sessions demo_filter)) (i : info) (c : coll demo_filter) : res (coll demo_filter) := snd (create_simulator pclose zclose "today" f i c).
Definition tap (k : Z) (c : coll demo_filter) (s m : string) : option Z := option_map (fun p => p_at p 0 0 k) (lookup2 (c_paths c) s m).
Definition len (c : coll demo_filter) (s m : string) : option Z := option_map (@p_len _) (lookup2 (c_paths c) s m).

Lemma witness (A B C : Type) (r : res A) (x : A -> res B) (y : A -> res C) (P : A -> B -> C -> bool) :
  (match r with Ok a => match x a, y a with Ok b, Ok c => P a b c | _, _ => false end | Err _ => false end) = true ->
  exists a b c, r = Ok a /\ x a = Ok b /\ y a = Ok c /\ P a b c = true.
Proof. destruct r as [a|]; [|discriminate]. destruct (x a) as [b|] eqn:Q1; [|discriminate]. destruct (y a) as [c|] eqn:Q2; [|discriminate]. intros H. exists a, b, c. auto. Qed.
Definition oneq (a b : option Z) : bool := match a, b with Some x, Some y => negb (x =? y) | _, _ => false end.
Lemma oneq_neq a b : oneq a b = true -> a <> b.
Proof. destruct a as [x|], b as [y|]; cbn; try discriminate. destruct (Z.eqb_spec x y); [discriminate|]. congruence. Qed.

(** C42: without an "ism" path the high-pass filter is not compared, but "direct" paths are filtered, too: the session stored for one cutoff is loaded
    for another one. *)
Theorem C42_cutoff_refuted : exists i j c loaded fresh, (exists Q, built Q c) /\ created (Some (after_saving j c)) i c = Ok loaded /\ created None i c = Ok fresh /\ tap 0 loaded "s" "m" <> tap 0 fresh "s" "m".
Proof.
  pose (i := inf true "direct" 8 2 4). pose (j := inf true "direct" 8 3 4).
  destruct (@witness _ _ _ (setup [ar "s" KFree 3 None 0; ar "m" KMic 0 None 0] [] []) (fun c => created (Some (after_saving j c)) i c) (fun c => created None i c)
    (fun _ l f => oneq (tap 0 l "s" "m") (tap 0 f "s" "m"))) as (c & l & f & H1 & H2 & H3 & H4); [vm_compute; reflexivity|].
  exists i, j, c, l, f. split; [exists (fun _ => True); apply (setup_built _ _ _ H1)|]. split; auto. split; auto. apply oneq_neq. exact H4.
Qed.
(** C42: the length of "random" paths is not compared either *)
Theorem C42_random_refuted : exists i j c loaded fresh, (exists Q, built Q c) /\ created (Some (after_saving j c)) i c = Ok loaded /\ created None i c = Ok fresh /\ len loaded "s" "m" <> len fresh "s" "m".
Proof.
  pose (i := inf true "direct" 8 0 4). pose (j := inf true "direct" 5 0 4).
  destruct (@witness _ _ _ (setup [ar "s" KFree 3 None 0; ar "m" KMic 0 None 0] [] [("s", "m", "random")]) (fun c => created (Some (after_saving j c)) i c) (fun c => created None i c)
    (fun _ l f => oneq (len l "s" "m") (len f "s" "m"))) as (c & l & f & H1 & H2 & H3 & H4); [vm_compute; reflexivity|].
  exists i, j, c, l, f. split; [exists (fun _ => True); apply (setup_built _ _ _ H1)|]. split; auto. split; auto. apply oneq_neq. exact H4.
Qed.
(** C42: np.allclose repeats axes of length one, so that a given path of one sample is accepted in the place of a longer constant one *)
Theorem C42_given_refuted : exists i c d loaded fresh, (exists Q, built Q c) /\ (exists Q, built Q d) /\ created (Some (after_saving i d)) i c = Ok loaded /\ created None i c = Ok fresh /\ len loaded "s" "m" <> len fresh "s" "m".
Proof.
  pose (i := inf true "direct" 8 0 4). pose (arrs := [ar "s" KFree 3 None 0; ar "m" KMic 0 None 0]). 
  destruct (@witness _ _ _ (setup arrs [("s", "m", mkPath 1 1 1 (fun _ _ _ => 7))] [])
    (fun c => d <- setup arrs [("s", "m", mkPath 1 1 3 (fun _ _ _ => 7))] [] ;; l <- created (Some (after_saving i d)) i c ;; Ok (d, l)) (fun c => created None i c)
    (fun _ l f => oneq (len (snd l) "s" "m") (len f "s" "m"))) as (c & [d l] & f & H1 & H2 & H3 & H4); [vm_compute; reflexivity|].
  apply bind_ok in H2 as (d' & Hd & H2). apply bind_ok in H2 as (l' & Hl & H2). injection H2 as -> ->.
  exists i, c, d, l, f. split; [exists (fun _ => True); apply (setup_built _ _ _ H1)|]. split; [exists (fun _ => True); apply (setup_built _ _ _ Hd)|]. split; auto. split; auto. apply oneq_neq. exact H4.
Qed.
(** C43: a stored session with the same arrays but a given path of another length makes the search fail.  Two setups [c] and [d] whose sessions are both in the folder (the
    session of [d] was added to the folder that had the one of [c]): when the folder is listed in another order, [c] cannot be simulated any more. *)
Theorem C43_refuted : exists i c d f g e, (exists Q, built Q c) /\ (exists Q, built Q d) /\
  f = last (fst (create_simulator pclose zclose "today" (Some (after_saving i c)) i d)) [] /\ (exists l, created (Some f) i c = Ok l) /\ Permutation g f /\ created (Some g) i c = Err e /\ e = ValueError.
Proof.
  pose (i := inf true "direct" 8 0 4). pose (s1 := ar "s1" KFree 3 None 0). pose (s2 := ar "s2" KFree 4 None 0). pose (m := ar "m" KMic 0 None 0).
  pose (rc := setup [s1; s2; m] [("s1", "m", mkPath 1 1 3 (fun _ _ _ => 7))] []). pose (rd := setup [s2; s1; m] [("s1", "m", mkPath 1 1 2 (fun _ _ _ => 7))] [("s2", "m", "none")]).
  destruct (@witness _ _ _ rc (fun c => d <- rd ;; let f := last (fst (create_simulator pclose zclose "today" (Some (after_saving i c)) i d)) [] in l <- created (Some f) i c ;; Ok (d, l))
     (fun c => d <- rd ;; let f := last (fst (create_simulator pclose zclose "today" (Some (after_saving i c)) i d)) [] in match created (Some (rev f)) i c with Err ValueError => Ok tt | _ => Err KeyError end)
     (fun _ _ _ => true)) as (c & [d l] & u & H1 & H2 & H3 & _); [vm_compute; reflexivity|].
  apply bind_ok in H2 as (d' & Hd & H2). apply bind_ok in H2 as (l' & Hl & H2). injection H2 as -> ->. apply bind_ok in H3 as (d' & Hd' & H3). rewrite Hd in Hd'. injection Hd' as <-.
  exists i, c, d. eexists. eexists (rev _), ValueError. split; [exists (fun _ => True); apply (setup_built _ _ _ H1)|]. split; [exists (fun _ => True); apply (setup_built _ _ _ Hd)|]. split; [reflexivity|]. split; [exists l; exact Hl|]. split; [apply Permutation_sym, Permutation_rev|].
  split; auto. cbv zeta in H3. match type of H3 with match ?r with _ => _ end = _ => destruct r as [x|e] eqn:Q end; [discriminate H3|]. destruct e; try discriminate H3. first [exact Q|reflexivity].
Qed.
(** C61: a loaded session keeps the trajectories and the update frequency with which it was stored.  Here a setup with a moving microphone is created after one with a
    resting microphone at the same place: at time 4 its microphone has not moved. *)
Theorem C61_trajectory_refuted : exists i c d loaded fresh, (exists Q, built Q c) /\ (exists Q, built Q d) /\ 
  (l <- created (Some (after_saving i d)) i c ;; update l 4) = Ok loaded /\ (l <- created None i c ;; update l 4) = Ok fresh /\ tap 7 loaded "s" "m" <> tap 7 fresh "s" "m".
Proof.
  pose (i := inf true "ism" 8 0 4). pose (s := ar "s" KFree 3 None 0).
  destruct (@witness _ _ _ (setup [s; ar "m" KMic 0 (Some (fun t => - t)) 0] [] []) (fun c => d <- setup [s; ar "m" KMic 0 None 0] [] [] ;; l <- (l <- created (Some (after_saving i d)) i c ;; update l 4) ;; Ok (d, l))
    (fun c => l <- created None i c ;; update l 4) (fun _ l f => oneq (tap 7 (snd l) "s" "m") (tap 7 f "s" "m"))) as (c & [d l] & f & H1 & H2 & H3 & H4); [vm_compute; reflexivity|].
  apply bind_ok in H2 as (d' & Hd & H2). apply bind_ok in H2 as (l' & Hl & H2). injection H2 as -> ->.
  exists i, c, d, l, f. split; [exists (fun _ => True); apply (setup_built _ _ _ H1)|]. split; [exists (fun _ => True); apply (setup_built _ _ _ Hd)|]. split; auto. split; auto. apply oneq_neq. exact H4.
Qed.
Theorem C61_frequency_refuted : exists i j c loaded fresh, (exists Q, built Q c) /\ array_update_freq i <> array_update_freq j /\
  (l <- created (Some (after_saving j c)) i c ;; update l 4) = Ok loaded /\ (l <- created None i c ;; update l 4) = Ok fresh /\ tap 7 loaded "s" "m" <> tap 7 fresh "s" "m".
Proof.
  pose (i := inf true "ism" 8 0 4). pose (j := inf true "ism" 8 0 3).
  destruct (@witness _ _ _ (setup [ar "s" KFree 3 None 0; ar "m" KMic 0 (Some (fun t => - t)) 0] [] []) (fun c => l <- created (Some (after_saving j c)) i c ;; update l 4)
    (fun c => l <- created None i c ;; update l 4) (fun _ l f => oneq (tap 7 l "s" "m") (tap 7 f "s" "m"))) as (c & l & f & H1 & H2 & H3 & H4); [vm_compute; reflexivity|].
  exists i, j, c, l, f. split; [exists (fun _ => True); apply (setup_built _ _ _ H1)|]. split; [cbn; lia|]. split; auto. split; auto. apply oneq_neq. exact H4.
Qed.

(** a setup with a computed and a given path *)
Definition ex_setup : res (coll demo_filter) := setup [ar "s" KFree 3 None 0; ar "m1" KMic 0 None 0; ar "m2" KMic 1 None 0] [("s", "m2", mkPath 1 1 3 (fun _ _ _ => 7))] [].
Definition ex_info : info := inf true "ism" 8 2 4.
Lemma ex_given c : ex_setup = Ok c -> given_paths c.
Proof.
  intros H s m Ht. assert (K : get ex_setup (fun c => c_ptypes c) = Some [("s", [])]) by (vm_compute; reflexivity). rewrite H in K. cbn [get] in K. injection K as K. rewrite K in Ht. unfold lookup2 in Ht. cbn [dget] in Ht. destruct (String.eqb s "s"); discriminate Ht.
Qed.
(** the hypotheses of C43_again, C44_refuted and C44_ends_partial *)
Example C43_again_example : exists c states c2, built (fun _ => True) c /\ info_post_init ex_info = Ok ex_info /\ given_paths c /\ create_simulator pclose zclose "today" (Some []) ex_info c = (states, Ok c2) /\ (1 < length states)%nat.
Proof.
  destruct (@witness _ _ _ ex_setup (fun c => snd (create_simulator pclose zclose "today" (Some []) ex_info c)) (fun c => Ok tt) (fun c _ _ => (1 <? Z.of_nat (length (fst (create_simulator pclose zclose "today" (Some []) ex_info c)))))) as (c & c2 & u & H1 & H2 & _ & H4); [vm_compute; reflexivity|].
  exists c, (fst (create_simulator pclose zclose "today" (Some []) ex_info c)), c2. split; [apply (setup_built _ _ _ H1)|]. split; [reflexivity|]. split; [apply ex_given; auto|]. split; [rewrite <- H2; apply surjective_pairing|]. apply Z.ltb_lt in H4. lia.
Qed.
(** the hypotheses of C42_paths_partial: the same arrays and another, acoustically equal configuration *)
Example C42_example : exists i j c0 c st fresh, prepared i c0 c /\ prepared j c0 c /\ i <> j /\ setup_ir c j = Ok st /\ setup_ir c i = Ok fresh /\ session_matches pclose zclose i c (Full j) (Full st) = Ok true /\
  (forall a b p q, lookup2 (c_paths c) a b = Some p -> lookup2 (c_paths c) a b = Some q -> p_ns p = p_ns q /\ p_nm p = p_nm q /\ p_len p = p_len q) /\
  (forall a b, lookup2 (c_ptypes c) a b <> Some "random") /\ randomized_ism i = false /\
  (forall par g g' a b h p h' p', rp_random par = false -> ism3d par g a b = Ok (h, p) -> ism3d par g' a b = Ok (h', p') -> p = p') /\ lookup2 (c_ptypes c) "s" "m1" = Some "ism" /\ lookup2 (c_ptypes c) "s" "m2" = Some "modified".
Proof.
  pose (j := inf true "ism" 8 2 3).
  destruct (@witness _ _ _ ex_setup (fun c0 => c <- set_default_path_type c0 "ism" ;; st <- setup_ir c j ;; fresh <- setup_ir c ex_info ;; Ok (c, st, fresh)) (fun _ => Ok tt)
    (fun _ x _ => match x with (c, st, fresh) => match session_matches pclose zclose ex_info c (Full j) (Full st) with Ok true => true | _ => false end end)) as (c0 & [[c st] fresh] & u & H1 & H2 & _ & H4); [vm_compute; reflexivity|].
  assert (K : get (c0 <- ex_setup ;; c <- set_default_path_type c0 "ism" ;; Ok (c_ptypes c)) (fun x => x) = Some [("s", [("m1", "ism"); ("m2", "modified")])]) by (vm_compute; reflexivity).
  apply bind_ok in H2 as (c' & Hd & H2). apply bind_ok in H2 as (st' & Hs & H2). apply bind_ok in H2 as (f' & Hf & H2). injection H2 as -> -> ->.
  rewrite H1 in K. cbn [bind] in K. rewrite Hd in K. cbn [bind get] in K. injection K as K.
  exists ex_info, j, c0, c, st, fresh. assert (B : built (fun _ => True) c0) by (apply (setup_built _ _ _ H1)). split; [split; [exists (fun _ => True); auto|exact Hd]|]. split; [split; [exists (fun _ => True); auto|exact Hd]|].
  split. { intros Z. assert (X : array_update_freq ex_info = array_update_freq j) by (rewrite Z; reflexivity). cbn in X. lia. }
  split; auto. split; auto. split. { destruct (session_matches _ _ _ _ _ _) as [[|]|]; [reflexivity|discriminate H4|discriminate H4]. }
  split. { intros a b p q Hp Hq. rewrite Hp in Hq. injection Hq as <-. auto. } rewrite K.
  split. { intros a b. unfold lookup2. cbn [dget]. destruct (String.eqb a "s"); [|discriminate]. cbn [dget]. destruct (String.eqb b "m1"); [discriminate|]. destruct (String.eqb b "m2"); discriminate. }
  split; [reflexivity|]. split; [|split; reflexivity]. intros par g g' a b h p h' p' _ X Y. cbn in X, Y. injection X as _ <-. injection Y as _ <-. reflexivity.
Qed.
(** the hypotheses of C63_moving_refuted: a loaded setup with a moving microphone *)
Example C63_example : exists c0 c st c' fresh a b, built (fun _ => True) c0 /\ set_default_path_type c0 (reverb ex_info) = Ok c /\ given_paths c /\ setup_ir c ex_info = Ok st /\ set_default_path_type st (reverb ex_info) = Ok c' /\ setup_ir c' ex_info = Ok fresh /\
  the_array fresh "s" a /\ the_array fresh "m" b /\ is_source a = true /\ is_mic b = true /\ a_traj b <> None /\ 4 mod array_update_freq ex_info = 0.
Proof.
  pose (r := setup [ar "s" KFree 3 None 0; ar "m" KMic 0 (Some (fun t => - t)) 0] [] []).
  destruct (@witness _ _ _ r (fun c0 => c <- set_default_path_type c0 "ism" ;; st <- setup_ir c ex_info ;; c' <- set_default_path_type st "ism" ;; fresh <- setup_ir c' ex_info ;; Ok (c, st, c', fresh)) (fun _ => Ok tt)
    (fun _ x _ => match x with (c, st, c', fresh) => match dget (c_arrays fresh) "s", dget (c_arrays fresh) "m" with Some a, Some b => is_source a && is_mic b && match a_traj b with Some _ => true | None => false end | _, _ => false end end)) as (c0 & [[[c st] c'] fresh] & u & H1 & H2 & _ & H4); [vm_compute; reflexivity|].
  assert (K : get (c0 <- r ;; c <- set_default_path_type c0 "ism" ;; Ok (c_ptypes c)) (fun x => x) = Some [("s", [("m", "ism")])]) by (vm_compute; reflexivity).
  apply bind_ok in H2 as (x1 & Hd & H2). apply bind_ok in H2 as (x2 & Hs & H2). apply bind_ok in H2 as (x3 & Hd' & H2). apply bind_ok in H2 as (x4 & Hf & H2). injection H2 as -> -> -> ->.
  rewrite H1 in K. cbn [bind] in K. rewrite Hd in K. cbn [bind get] in K. injection K as K.
  destruct (dget (c_arrays fresh) "s") as [a|] eqn:Qa; [|discriminate H4]. destruct (dget (c_arrays fresh) "m") as [b|] eqn:Qb; [|discriminate H4]. apply andb_true_iff in H4 as [H4 H5]. apply andb_true_iff in H4 as [H4 H6].
  exists c0, c, st, c', fresh, a, b. split; [apply (setup_built _ _ _ H1)|]. split; [exact Hd|]. split. { intros s m Ht. rewrite K in Ht. unfold lookup2 in Ht. cbn [dget] in Ht. destruct (String.eqb s "s"); [|discriminate Ht]. cbn [dget] in Ht. destruct (String.eqb m "m"); discriminate Ht. }
  split; auto. split; [exact Hd'|]. split; auto. split; [exact Qa|]. split; [exact Qb|]. split; auto. split; auto. split; [intros Z; rewrite Z in H5; discriminate H5|reflexivity].
Qed.
(** the hypotheses of C43_found and C43_sources: the session folder holds a stray file and the session of the same setup *)
Example C43_found_meets : exists c0 c c2 l, let f := [("notes", EFile); ("session", EDir (Full ex_info) (Full c2))] in
  prepared ex_info c0 c /\ info_post_init ex_info = Ok ex_info /\ given_paths c /\ setup_ir c ex_info = Ok c2 /\
  (forall n e, In (n, e) f -> comparable pclose zclose ex_info c e) /\ NoDup (dkeys f) /\ load_session pclose zclose f ex_info c = Ok l /\ exists a, the_array c "s" a /\ is_free a = true.
Proof.
  destruct (@witness _ _ _ ex_setup (fun c0 => c <- set_default_path_type c0 "ism" ;; c2 <- setup_ir c ex_info ;; l <- load_session pclose zclose [("notes", EFile); ("session", EDir (Full ex_info) (Full c2))] ex_info c ;; Ok (c, c2, l)) (fun _ => Ok tt)
    (fun _ x _ => match x with (c, c2, l) => match session_matches pclose zclose ex_info c (Full ex_info) (Full c2) with Ok true => true | _ => false end && match dget (c_arrays c) "s" with Some a => is_free a | None => false end end)) as (c0 & [[c c2] l] & u & H1 & H2 & _ & H4); [vm_compute; reflexivity|].
  assert (K : get (c0 <- ex_setup ;; c <- set_default_path_type c0 "ism" ;; Ok (c_ptypes c)) (fun x => x) = Some [("s", [("m1", "ism"); ("m2", "modified")])]) by (vm_compute; reflexivity).
  assert (K' : get (c0 <- ex_setup ;; c <- set_default_path_type c0 "ism" ;; Ok (match lookup2 (c_paths c) "s" "m2" with Some _ => true | None => false end)) (fun x => x) = Some true) by (vm_compute; reflexivity).
  apply bind_ok in H2 as (x1 & Hd & H2). apply bind_ok in H2 as (x2 & Hs & H2). apply bind_ok in H2 as (x3 & Hl & H2). injection H2 as -> -> ->.
  rewrite H1 in K, K'. cbn [bind] in K, K'. rewrite Hd in K, K'. cbn [bind get] in K, K'. injection K as K. injection K' as K'.
  apply andb_true_iff in H4 as [H4 H5]. exists c0, c, c2, l. cbv zeta. split; [split; [exists (fun _ => True); apply (setup_built _ _ _ H1)|exact Hd]|]. split; [reflexivity|].
  split. { intros s m Ht. rewrite K in Ht. unfold lookup2 in Ht. cbn [dget] in Ht. destruct (String.eqb_spec s "s"); [|discriminate Ht]. cbn [dget] in Ht. destruct (String.eqb m "m1"); [discriminate Ht|]. destruct (String.eqb_spec m "m2"); [|discriminate Ht]. subst s m. intros Z. match type of K' with match ?t with _ => _ end = _ => assert (Y : t = None) by exact Z; rewrite Y in K' end. discriminate K'. }
  split; [exact Hs|]. split. { intros n e [H|[H|[]]]; injection H as <- <-; cbn [comparable]; [exact I|]. destruct (session_matches _ _ _ _ _ _) as [b|]; [exists b; reflexivity|discriminate H4]. }
  split; [repeat constructor; cbn; intuition discriminate|]. split; [exact Hl|]. destruct (dget (c_arrays c) "s") as [a|] eqn:Q; [|discriminate H5]. exists a. split; [exact Q|exact H5].
Qed.
End Examples.

Print Assumptions C42_paths_partial.
Print Assumptions C43_found.
Print Assumptions C43_sources.
Print Assumptions C43_again.
Print Assumptions C44_refuted.
Print Assumptions C44_ends_partial.
Print Assumptions C62_load.
Print Assumptions C62_load_refuted.
Print Assumptions C62_incomplete.
Print Assumptions C63_paths.
Print Assumptions C63_moving_refuted.
Print Assumptions C42_cutoff_refuted.
Print Assumptions C42_random_refuted.
Print Assumptions C42_given_refuted.
Print Assumptions C43_refuted.
Print Assumptions C61_trajectory_refuted.
Print Assumptions C61_frequency_refuted.
