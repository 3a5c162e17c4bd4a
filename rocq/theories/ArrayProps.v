(** C37-C40: array collections, path types, path generation, position updates. *)
Require Import Verif.PyBase Verif.PyLemmas Verif.ConfigModel Verif.ArrayModel Verif.ArraySpec Verif.ArrayProofs Verif.ArrayPaths Verif.Demo.
Set Implicit Arguments.

Section Props.
Context {E : AEnv}.
Notation arr := (arr Pos Src).
Notation coll := (coll E).

(* ------------------------------------------------------------------ C37 *)
(** Adding the arrays of [l] one by one: the names are distinct, each lookup returns the array added
    under that name and nothing else, no array is both microphone and source, the iterators return
    the arrays of their class in the order of addition, every pair comes exactly once. *)
Theorem C37_collection_consistent g (l : list arr) (c : coll) : add_all (empty_coll g) l = Ok c ->
  NoDup (map (fun a => a_name a) l) /\
  (forall k a, dget (c_arrays c) k = Some a <-> In a l /\ a_name a = k) /\
  (forall a, In a l -> (is_mic a = true /\ is_source a = false) \/ (is_mic a = false /\ is_source a = true)) /\
  mics c = Ok (filter is_mic l) /\ sources c = Ok (filter is_source l) /\ free_sources c = Ok (filter is_free l) /\
  mic_src_combos c = Ok (list_prod (filter is_source l) (filter is_mic l)) /\
  NoDup (pair_names (list_prod (filter is_source l) (filter is_mic l))).
Proof.
  intros H. destruct (add_all_ok _ (empty_coll_ok g) H) as (O & HA & HF). simpl in HA.
  assert (HM : map snd (c_arrays c) = l) by (rewrite HA, map_map; simpl; apply map_id).
  assert (HN : NoDup (map (fun a => a_name a) l)).
  { pose proof (ok_names O) as N. rewrite HA in N. unfold dkeys in N. rewrite map_map in N. exact N. }
  split; [auto|]. split; [|split; [|split; [|split; [|split; [|split]]]]].
  - intros k a. split.
    + intros D. split; [|apply (ok_key O); auto]. apply dget_In in D. rewrite HA in D. apply in_map_iff in D as (b & Eb & Hb). inversion Eb; subst; auto.
    + intros [Hin <-]. apply In_dget; [apply (ok_names O)|]. rewrite HA. apply in_map_iff. exists a; auto.
  - intros a Ha. rewrite Forall_forall in HF. specialize (HF a Ha). unfold is_mic, is_source in *. destruct (a_kind a); auto; discriminate.
  - rewrite (mics_eq O), HM; auto.
  - rewrite (sources_eq O), HM; auto.
  - rewrite (free_sources_eq O), HM; auto.
  - rewrite (combos_eq O), HM; auto.
  - pose proof (combos_eq O) as HC. rewrite HM in HC. destruct (combos_names O HC) as [HP _].
    unfold pair_names. rewrite HP. apply NoDup_list_prod; [apply NoDup_src|apply NoDup_mic]; auto.
Qed.

(** what the classes are: microphone arrays and regions are microphones, loudspeaker arrays and free sources are sources *)
Theorem C37_kinds (a : arr) : (is_mic a = true <-> a_kind a = KMic \/ a_kind a = KRegion) /\ (is_free a = true <-> a_kind a = KFree) /\
  (is_source a = true -> is_mic a = false) /\ (is_free a = true -> is_source a = true) /\ (a_kind a = KOther -> is_mic a = false /\ is_source a = false).
Proof. unfold is_mic, is_free, is_source. destruct (a_kind a); repeat split; intros; try discriminate; auto; try (destruct H; discriminate). Qed.
(** The same consistency holds for whatever sequence of successful calls led to the collection. *)
Theorem C37_always_consistent (Q : arr -> Prop) (c : coll) : built Q c ->
  NoDup (dkeys (c_arrays c)) /\ (forall k a, dget (c_arrays c) k = Some a -> a_name a = k) /\
  (forall k, In k (c_mic c) <-> exists a, dget (c_arrays c) k = Some a /\ is_mic a = true) /\
  (forall k, In k (c_src c) <-> exists a, dget (c_arrays c) k = Some a /\ is_source a = true) /\
  (forall k, In k (c_free c) <-> exists a, dget (c_arrays c) k = Some a /\ is_free a = true) /\
  (forall k, In k (c_mic c) -> ~ In k (c_src c)) /\
  NoDup (list_prod (c_src c) (c_mic c)).
Proof.
  intros B. pose proof (built_ok B) as O. split; [apply (ok_names O)|]. split; [apply (ok_key O)|].
  split; [intros; apply mic_names; auto|]. split; [intros; apply src_names; auto|]. split; [intros; apply free_names; auto|].
  split; [|apply NoDup_list_prod; [apply NoDup_src|apply NoDup_mic]; auto].
  intros k H1 H2. apply (mic_names _ O) in H1 as (a & Ha & H1). apply (src_names _ O) in H2 as (b & Hb & H2).
  unfold the_array in *. assert (a = b) by congruence. subst. unfold is_mic, is_source in *. destruct (a_kind b); discriminate.
Qed.

(** A name that is taken is rejected and nothing changes; a new microphone or source is accepted. *)
Theorem C37_duplicate_rejected (c : coll) a b : dget (c_arrays c) (a_name a) = Some b -> add_array c a = (c, Err AssertionError).
Proof. intros H. unfold add_array, dmem. rewrite H. auto. Qed.
Theorem C37_new_accepted (c : coll) a : dget (c_arrays c) (a_name a) = None -> a_kind a <> KOther ->
  exists c', add_array c a = (c', Ok tt).
Proof.
  intros H K. unfold add_array, dmem, is_mic, is_source. rewrite H. destruct (a_kind a); eauto; congruence.
Qed.

(* ------------------------------------------------------------------ C38 *)
(** After defaults are applied every pair has the type it should have; a path supplied by the user
    wins, then a type set by the user, then the default.  Nothing else changes, and applying
    defaults again (even other ones) changes nothing. *)
Theorem C38_types_resolved (Q : arr -> Prop) (c : coll) pt : built Q c ->
  exists c', set_default_path_type c pt = Ok c' /\
    (forall s m, In s (c_src c) -> In m (c_mic c) ->
       lookup2 (c_ptypes c') s m =
         Some (match lookup2 (c_paths c) s m, lookup2 (c_ptypes c) s m with
               | Some _, _ => "modified"%string
               | None, Some t => t
               | None, None => pt
               end)) /\
    c_paths c' = c_paths c /\ c_arrays c' = c_arrays c /\ c_mic c' = c_mic c /\ c_src c' = c_src c /\
    (forall pt2, set_default_path_type c' pt2 = Ok c').
Proof.
  intros B. pose proof (built_ok B) as O. destruct (set_default_total pt O) as [c' H]. exists c'. split; auto.
  destruct (set_default_ok _ O H) as (_ & A & P & _ & L). repeat split; auto; try apply A.
  - intros s m Hs Hm. rewrite L, (proj2 (smem_spec _ _) Hs), (proj2 (smem_spec _ _) Hm). simpl. unfold resolved.
    destruct (lookup2 (c_paths c) s m); auto.
  - intros pt2. eapply set_default_twice; eauto.
Qed.
(** What the user calls record: exactly the named pair changes. *)
Theorem C38_set_type (c : coll) s m t c' : set_path_type c s m t = Ok c' ->
  In s (c_src c) /\ In m (c_mic c) /\ c_paths c' = c_paths c /\
  forall s' m', lookup2 (c_ptypes c') s' m' = if String.eqb s' s && String.eqb m' m then Some t else lookup2 (c_ptypes c) s' m'.
Proof. intros H. destruct (set_path_type_ok _ _ _ _ H) as (H1 & H2 & _ & H3 & _ & _ & H4); auto. Qed.

(* ------------------------------------------------------------------ C39 *)
(** A user path is stored iff the arrays exist and its shape matches them. *)
Theorem C39_path_accepted (Q : arr -> Prop) (c : coll) p s m : built Q c ->
  (exists c', set_prop_path c p s m = Ok c') <->
  In s (c_src c) /\ In m (c_mic c) /\
  exists a b, dget (c_arrays c) s = Some a /\ dget (c_arrays c) m = Some b /\ p_ns p = a_num a /\ p_nm p = a_num b.
Proof.
  intros B. pose proof (built_ok B) as O. split.
  - intros [c' H]. destruct (set_prop_path_ok _ _ _ _ H) as (H1 & H2 & H3 & _); auto.
  - intros (H1 & H2 & a & b & Ha & Hb & E1 & E2). eapply set_prop_path_total; eauto.
Qed.
Theorem C39_path_stored (c : coll) p s m c' : set_prop_path c p s m = Ok c' ->
  c_ptypes c' = c_ptypes c /\
  forall s' m', lookup2 (c_paths c') s' m' = if String.eqb s' s && String.eqb m' m then Some p else lookup2 (c_paths c) s' m'.
Proof. intros H. destruct (set_prop_path_ok _ _ _ _ H) as (_ & _ & _ & _ & T & _ & _ & L); auto. Qed.

(** Path generation: pairs of type "modified" keep their path, every other pair gets a path made from
    the two arrays with the pair's type; arrays and types stay. *)
Theorem C39_setup_ir (Q : arr -> Prop) (c : coll) i c' : built Q c -> setup_ir c i = Ok c' ->
  (forall s m, lookup2 (c_ptypes c) s m = Some "modified"%string -> lookup2 (c_paths c') s m = lookup2 (c_paths c) s m) /\
  (forall s m a b, In s (c_src c) -> In m (c_mic c) -> dget (c_arrays c) s = Some a -> dget (c_arrays c) m = Some b ->
     lookup2 (c_ptypes c) s m <> Some "modified"%string ->
     exists t g g' p, lookup2 (c_ptypes c) s m = Some t /\ made_path i g a b t g' p /\ lookup2 (c_paths c') s m = Some p) /\
  c_arrays c' = c_arrays c /\ c_ptypes c' = c_ptypes c /\ c_info c' = Some i.
Proof.
  intros B H. pose proof (built_ok B) as O.
  destruct (setup_ir_ok _ O H) as (cs & P & Hc & HR & HN & HL & Hi & A & T & _).
  destruct (@regenerate_values _ _ _ _ _ _ _ _ HR HN) as [R1 R2]. destruct (combos_names O Hc) as [_ HC].
  split; [|split; [|split; [exact (sa_arrays A)|auto]]].
  - intros s m Hm. rewrite HL. apply R2. intros Hin. apply in_map_iff in Hin as ([s' m'] & Esm & Hin). simpl in Esm. inversion Esm; subst.
    apply filter_In in Hin as [_ Hg]. unfold generated in Hg. simpl in Hg. rewrite Hm in Hg. discriminate.
  - intros s m a b Hs Hm Ha Hb Ht.
    assert (En : a_name a = s) by (apply (ok_key O); auto). assert (Em : a_name b = m) by (apply (ok_key O); auto). subst s m.
    destruct (R1 a b) as (t & g1 & g2 & p & Hp & Hcp & HP).
    { apply filter_In; split.
      - apply HC. repeat split; auto.
        + apply (src_names _ O) in Hs as (x & Hx & Kx). unfold the_array in Hx. congruence.
        + apply (mic_names _ O) in Hm as (x & Hx & Kx). unfold the_array in Hx. congruence.
      - unfold generated. simpl. destruct (lookup2 (c_ptypes c) (a_name a) (a_name b)) as [t|]; auto.
        destruct (String.eqb_spec t "modified"); auto. subst. congruence. }
    exists t, g1, g2, p. rewrite HL. repeat split; auto. apply create_path_made; auto.
Qed.
(** Which types can be generated at all. *)
Theorem C39_generation_succeeds i g (s m : arr) t : (exists g' p, create_path i g s m t = Ok (g', p)) <->
  t = "none"%string \/ (t = "direct"%string /\ a_num s = a_num m) \/ t = "random"%string \/
  (t = "ism"%string /\ spatial_dims i = 3 /\ (forall d, In d (a_dirs m) -> d = "omni"%string) /\
   exists g' p, ism3d (rir_params i) g (a_pos s) (a_pos m) = Ok (g', p)).
Proof. exact (create_path_total i g s m t). Qed.
(** Every path there ever is has one row per source and one column per microphone of its arrays. *)
Theorem C39_shapes rows (c : coll) : generators_shaped rows -> built (sized rows) c ->
  forall s m p, lookup2 (c_paths c) s m = Some p -> exists a b,
    dget (c_arrays c) s = Some a /\ dget (c_arrays c) m = Some b /\ is_source a = true /\ is_mic b = true /\
    p_ns p = a_num a /\ p_nm p = a_num b.
Proof.
  intros HG B s m p L. destruct (built_shaped (Q := sized rows) HG (fun a H => H) B) as (_ & S & K). pose proof (built_ok B) as O.
  destruct (K _ _ _ L) as [Hs Hm]. destruct (proj1 (src_names s O) Hs) as (a & Ha & Ka). destruct (proj1 (mic_names m O) Hm) as (b & Hb & Kb).
  exists a, b. destruct (S s m p a b L Hs Hm Ha Hb). auto 10.
Qed.
(** An empty array is not given zero paths: with an empty array in some pair, setting up fails. *)
Theorem C39_empty_array_fails (Q : arr -> Prop) (c : coll) i s m a b : built Q c -> In s (c_src c) -> In m (c_mic c) ->
  dget (c_arrays c) s = Some a -> dget (c_arrays c) m = Some b -> a_num a = 0 \/ a_num b = 0 -> setup_ir c i = Err ValueError.
Proof.
  intros B Hs Hm Ha Hb Hz. pose proof (built_ok B) as O. unfold setup_ir.
  assert (K : calc_rir_parameters (set_info c i) = Err ValueError).
  { unfold calc_rir_parameters. change (mic_src_combos (set_info c i)) with (mic_src_combos c).
    rewrite (combos_eq O). cbn [bind].
    assert (Hin : In (a, b) (list_prod (filter is_source (map snd (c_arrays c))) (filter is_mic (map snd (c_arrays c))))).
    { apply in_prod; apply filter_In; split.
      - apply in_map_iff. exists (s, a); split; auto. apply dget_In; auto.
      - apply (src_names _ O) in Hs as (x & Hx & Kx). unfold the_array in Hx. congruence.
      - apply in_map_iff. exists (m, b); split; auto. apply dget_In; auto.
      - apply (mic_names _ O) in Hm as (x & Hx & Kx). unfold the_array in Hx. congruence. }
    revert Hin. induction (list_prod _ _) as [|x r IH]; simpl; [tauto|]. intros [->|Hin].
    - simpl. destruct (Z.eqb_spec (a_num a) 0), (Z.eqb_spec (a_num b) 0); simpl; auto; lia.
    - destruct ((a_num (fst x) =? 0) || (a_num (snd x) =? 0)); simpl; auto. }
  rewrite K. auto.
Qed.

(* ------------------------------------------------------------------ C40 *)
(** Time that is no multiple of the update frequency: nothing changes at all. *)
Theorem C40_not_set_up (c : coll) g : c_info c = None -> update c g = Err AttributeError.
Proof. intros H. unfold update. rewrite H. reflexivity. Qed.
Theorem C40_frequency_zero (c : coll) g i : c_info c = Some i -> array_update_freq i = 0 -> update c g = Err ZeroDivisionError.
Proof. intros Hi Hf. unfold update. rewrite Hi, Hf. reflexivity. Qed.
Theorem C40_no_update_in_between (c : coll) g i : c_info c = Some i -> array_update_freq i <> 0 ->
  g mod array_update_freq i <> 0 -> update c g = Ok c.
Proof.
  intros Hi Hf Hg. unfold update. rewrite Hi. destruct (Z.eqb_spec (array_update_freq i) 0); [contradiction|].
  destruct (Z.eqb_spec (g mod array_update_freq i) 0); [contradiction|]. auto.
Qed.
(** At an update step the moving arrays move to where their trajectory is; then, for a list of pairs
    that contains exactly the pairs with a moving endpoint and each only once, the paths are
    generated one after the other from the new positions.  All other paths stay. *)
Theorem C40_update_step (Q : arr -> Prop) (c : coll) g i c' : built Q c -> c_info c = Some i -> update c g = Ok c' ->
  g mod array_update_freq i = 0 ->
  (forall k, dget (c_arrays c') k = option_map (fun a => arr_update a g) (dget (c_arrays c) k)) /\
  exists pairs P,
    NoDup (pair_names pairs) /\
    (forall s m, In (s, m) pairs <->
       dget (c_arrays c') (a_name s) = Some s /\ dget (c_arrays c') (a_name m) = Some m /\
       is_source s = true /\ is_mic m = true /\ (a_traj s <> None \/ a_traj m <> None)) /\
    regenerate i (c_ptypes c) pairs (lookup2 (c_paths c)) (c_rng c) = Ok (P, c_rng c') /\
    forall s m, lookup2 (c_paths c') s m = P s m.
Proof.
  intros B Hi H Hg. pose proof (built_ok B) as O. destruct (update_ok _ O Hi H) as (_ & _ & U & _).
  destruct (U Hg) as (l & P & HN & Hl & HR & HL & Ha). split.
  - intros k. rewrite Ha. unfold moved_arrays. apply (dget_map (fun a => arr_update a g)).
  - exists l, P. repeat split; auto.
    + apply Hl in H0; tauto.
    + apply Hl in H0; tauto.
    + apply Hl in H0; tauto.
    + apply Hl in H0; tauto.
    + apply Hl in H0 as (_ & _ & _ & _ & D). unfold dynamic in D. destruct (a_traj s), (a_traj m); try discriminate; [left|left|right]; discriminate.
    + intros (T1 & T2 & K1 & K2 & D). apply Hl. unfold the_array, dynamic. repeat split; auto.
      destruct (a_traj s), (a_traj m); auto. destruct D; congruence.
Qed.
(** The same per pair: the new path of an affected pair is made from the new positions with the pair's
    type, any other path is the old one. *)
Theorem C40_paths_after_update (Q : arr -> Prop) (c : coll) g i c' : built Q c -> c_info c = Some i -> update c g = Ok c' ->
  g mod array_update_freq i = 0 ->
  forall s m a b, In s (c_src c) -> In m (c_mic c) -> dget (c_arrays c) s = Some a -> dget (c_arrays c) m = Some b ->
  if match a_traj a, a_traj b with None, None => false | _, _ => true end
  then exists t g1 g2 p, lookup2 (c_ptypes c) s m = Some t /\ made_path i g1 (arr_update a g) (arr_update b g) t g2 p /\
                         lookup2 (c_paths c') s m = Some p
  else lookup2 (c_paths c') s m = lookup2 (c_paths c) s m.
Proof.
  intros B Hi H Hg s m a b Hs Hm Ha Hb. pose proof (built_ok B) as O.
  destruct (@C40_update_step _ _ _ _ _ B Hi H Hg) as (HA & l & P & HN & Hl & HR & HL).
  destruct (@regenerate_values _ _ _ _ _ _ _ _ HR HN) as [R1 R2].
  assert (En : a_name (arr_update a g) = s) by (rewrite arr_update_name; apply (ok_key O); auto).
  assert (Em : a_name (arr_update b g) = m) by (rewrite arr_update_name; apply (ok_key O); auto).
  assert (Hin : In (arr_update a g, arr_update b g) l <-> (a_traj a <> None \/ a_traj b <> None)).
  { rewrite Hl, En, Em, !HA, Ha, Hb, !arr_update_traj. unfold is_source, is_mic. rewrite !arr_update_kind. simpl.
    split; [tauto|]. intros D. repeat split; auto.
    - apply (src_names _ O) in Hs as (x & Hx & Kx). unfold the_array in Hx. assert (x = a) by congruence. subst; auto.
    - apply (mic_names _ O) in Hm as (x & Hx & Kx). unfold the_array in Hx. assert (x = b) by congruence. subst; auto. }
  destruct (match a_traj a, a_traj b with None, None => false | _, _ => true end) eqn:Qd.
  - destruct (R1 (arr_update a g) (arr_update b g)) as (t & g1 & g2 & p & Ht & Hc & HP).
    { apply Hin. destruct (a_traj a), (a_traj b); try discriminate; [left|left|right]; discriminate. }
    rewrite En, Em in Ht, HP. exists t, g1, g2, p. rewrite HL. repeat split; auto. apply create_path_made; auto.
  - rewrite HL. apply R2. intros K. apply in_map_iff in K as ([x y] & Exy & K). simpl in Exy. inversion Exy; subst.
    assert (x = arr_update a g /\ y = arr_update b g).
    { pose proof (proj1 (Hl _ _) K) as (T1 & T2 & _). rewrite HA in T1, T2. rewrite H1, Ha in T1. rewrite H2, Hb in T2. simpl in *. split; congruence. }
    destruct H0; subst. apply Hin in K. destruct (a_traj a), (a_traj b); try discriminate. destruct K; congruence.
Qed.
(** A pair whose path was supplied by the user must not move. *)
(** without any source, line 309 reads a variable that was never assigned as soon as a microphone moves *)
Theorem C40_no_source (Q : arr -> Prop) (c : coll) g i m a : built Q c -> c_info c = Some i -> array_update_freq i <> 0 ->
  g mod array_update_freq i = 0 -> (forall k b, dget (c_arrays c) k = Some b -> is_mic b = true) -> dget (c_arrays c) m = Some a -> a_traj a <> None -> update c g = Err UnboundLocalError.
Proof.
  intros B Hi Hf Hg K Ha Hm. pose proof (built_ok B) as O. unfold update. rewrite Hi. destruct (Z.eqb_spec (array_update_freq i) 0); [contradiction|]. rewrite Hg. cbn [negb Z.eqb].
  assert (Hs : c_src c = []). { destruct (c_src c) as [|k r] eqn:E1; auto. assert (X : In k (c_src c)) by (rewrite E1; left; auto). apply (src_names _ O) in X as (b & Hb & X). apply K in Hb. unfold is_mic, is_source in *. destruct (a_kind b); discriminate. }
  set (ch := map fst _). assert (Hch : exists k r b, ch = k :: r /\ dget (c_arrays c) k = Some b).
  { assert (I : In m ch). { apply in_map_iff. exists (m, a). split; auto. apply filter_In. split; [apply dget_In; auto|]. cbn. unfold dynamic. destruct (a_traj a); [auto|contradiction]. }
    destruct ch as [|k r] eqn:Ech; [contradiction|]. assert (I' : In k ch) by (rewrite Ech; left; auto). apply in_map_iff in I' as ([k' b] & <- & I'). apply filter_In in I' as [I' _]. exists k', r, b. split; auto. apply In_dget; [apply (ok_names O)|auto]. }
  destruct Hch as (k & r & b & -> & Hb). cbn [foldM]. unfold update_changed at 1. cbn [c_arrays set_arrays]. unfold dgetE. rewrite (dget_map (fun a => arr_update a g)), Hb. cbn [option_map bind].
  assert (M : is_mic (arr_update b g) = true). { pose proof (K _ _ Hb) as X. unfold arr_update. destruct (a_traj b); auto. }
  rewrite M. unfold sources, lookup_all. cbn [c_src set_arrays]. rewrite Hs. reflexivity.
Qed.
(** an array that is neither microphone nor source stays in the collection although adding it raised an error (C37); as soon as it moves the update is refused *)
Theorem C40_other_kind (c : coll) g i pre k a post : c_info c = Some i -> array_update_freq i <> 0 -> g mod array_update_freq i = 0 ->
  c_arrays c = pre ++ (k, a) :: post -> dget (c_arrays c) k = Some a -> (forall kb, In kb pre -> a_traj (snd kb) = None) -> a_traj a <> None -> is_mic a = false -> is_source a = false ->
  update c g = Err ValueError.
Proof.
  intros Hi Hf Hg HA Ha Hpre Ht Hm Hs. unfold update. rewrite Hi. destruct (Z.eqb_spec (array_update_freq i) 0); [contradiction|]. rewrite Hg. cbn [negb Z.eqb].
  assert (D : forall kb, In kb pre -> dynamic (snd kb) = false). { intros kb I. unfold dynamic. rewrite (Hpre kb I). auto. }
  assert (F : exists rest, map fst (filter (fun kv : string * arr => dynamic (snd kv)) (c_arrays c)) = k :: rest).
  { rewrite HA, filter_app. replace (filter (fun kv : string * arr => dynamic (snd kv)) pre) with (@nil (string * arr)). 2:{ clear -D. induction pre as [|x r IH]; auto. cbn. rewrite (D x (or_introl eq_refl)). apply IH. intros kb I. apply D. right; auto. }
    cbn. unfold dynamic at 1. cbn. destruct (a_traj a); [|contradiction]. cbn. eexists. reflexivity. }
  destruct F as (rest & ->). cbn [foldM]. unfold update_changed at 1. cbn [c_arrays set_arrays]. unfold dgetE. rewrite (dget_map (fun a => arr_update a g)), Ha. cbn [option_map bind].
  assert (M : is_mic (arr_update a g) = false) by (unfold arr_update; destruct (a_traj a); auto). assert (S : is_source (arr_update a g) = false) by (unfold arr_update; destruct (a_traj a); auto).
  rewrite M, S. reflexivity.
Qed.
Theorem C40_user_path_must_not_move (Q : arr -> Prop) (c : coll) g i s m a b c' : built Q c -> c_info c = Some i ->
  g mod array_update_freq i = 0 -> In s (c_src c) -> In m (c_mic c) ->
  dget (c_arrays c) s = Some a -> dget (c_arrays c) m = Some b -> a_traj a <> None \/ a_traj b <> None ->
  lookup2 (c_ptypes c) s m = Some "modified"%string -> update c g <> Ok c'.
Proof.
  intros B Hi Hg Hs Hm Ha Hb D Ht H. pose proof (@C40_paths_after_update _ _ _ _ _ B Hi H Hg _ _ _ _ Hs Hm Ha Hb) as K.
  destruct (a_traj a), (a_traj b); try (destruct D; congruence);
    destruct K as (t & g1 & g2 & p9 & Ht9 & (q & R & _) & _); rewrite Ht in Ht9; inversion Ht9; subst; inversion R.
Qed.
End Props.

(* ------------------------------------------------------------------ examples *)
Section Examples.
Existing Instance demo.
Local Open Scope string_scope.
Local Open Scope Z_scope.
Definition ex_g : @G demo := 0.
Definition mk (n : string) (k : kind) (p : Z) (tr : option (Z -> Z)) : arr Pos Src :=
  mkArr n k 1 (p : Pos) (tr : option (Z -> Pos)) ["omni"] (Some (0 : Src)) [] [].
Definition ex_arrays : list (arr Pos Src) :=
  [mk "mic1" KMic 0 None; mk "src" KFree 3 None; mk "mic2" KRegion 1 (Some (fun t => 1 + t)); mk "spk" KCtrl 2 None].
Definition ex_user : path V := mkPath 1 1 2 (fun _ _ k => 7 + k).
Definition ex_coll : res (coll demo) :=
  c <- add_all (empty_coll ex_g) ex_arrays ;;
  c <- set_prop_path c ex_user "src" "mic1" ;;
  c <- set_path_type c "spk" "mic2" "random" ;;
  set_default_path_type c "ism".

Example C37_example : get (add_all (empty_coll ex_g) ex_arrays)
    (fun c => (c_mic c, c_src c, c_free c, is_ok (snd (add_array c (mk "src" KMic 0 None)))))
  = Some (["mic1"; "mic2"], ["src"; "spk"], ["src"], false).
Proof. vm_compute; reflexivity. Qed.
Example C38_example : get ex_coll
    (fun c => map (fun sm => lookup2 (c_ptypes c) (fst sm) (snd sm)) (list_prod (c_src c) (c_mic c)))
  = Some [Some "modified"; Some "ism"; Some "ism"; Some "random"].
Proof. vm_compute; reflexivity. Qed.
Lemma add_all_built (Q : arr Pos Src -> Prop) l : forall c c' : coll demo, Forall Q l -> built Q c -> add_all c l = Ok c' -> built Q c'.
Proof.
  unfold add_all. induction l as [|a l IH]; simpl; intros c c' F B H; [inversion H; subst; auto|]. inversion F; subst.
  apply bind_ok in H as (c5 & H5 & H). destruct (add_array c a) as [c6 [u|]] eqn:QE; inversion H5; subst.
  apply (IH c5 c'); auto. eapply built_add; eauto.
Qed.
Lemma ex_add c : add_all (empty_coll ex_g) ex_arrays = Ok c -> built (sized (fun _ => 1)) c.
Proof. intros H. eapply add_all_built; [|constructor|exact H]. repeat constructor; simpl; intros; auto; discriminate. Qed.
(** a reachable collection with a user path, a moving microphone and all paths set up *)
Lemma ex_chain c c' : ex_coll = Ok c -> setup_ir c demo_info = Ok c' -> built (sized (fun _ => 1)) c'.
Proof.
  unfold ex_coll. intros H Q4. apply bind_ok in H as (c0 & Q0 & H). apply bind_ok in H as (c1 & Q1 & H). apply bind_ok in H as (c2 & Q2 & Q3).
  eapply built_setup; [|exact Q4]. eapply built_default; [|exact Q3]. eapply built_type; [|exact Q2]. eapply built_path; [|exact Q1]. exact (ex_add Q0).
Qed.
Example ex_built : exists c, built (sized (fun _ => 1)) c /\ c_info c = Some demo_info /\ c_src c = ["src"; "spk"] /\ c_mic c = ["mic1"; "mic2"].
Proof.
  assert (I : is_ok ex_coll = true) by (vm_compute; reflexivity). destruct (is_ok_ex _ I) as [c H].
  assert (K : get (c <- ex_coll ;; setup_ir c demo_info) (fun c => (c_info c, c_src c, c_mic c))
              = Some (Some demo_info, ["src"; "spk"], ["mic1"; "mic2"])) by (vm_compute; reflexivity).
  apply get_ex in K as (c' & K & K1). rewrite H in K. cbn [bind] in K. inversion K1. exists c'. split; auto. exact (ex_chain H K).
Qed.
Definition taps (c : coll demo) (s m : string) : option (Z * list Z) :=
  option_map (fun p => (p_len p, map (p_at p 0 0) (zrange 0 4))) (lookup2 (c_paths c) s m).
Example C39_example : get (c0 <- ex_coll ;; setup_ir c0 demo_info)
    (fun c => (taps c "src" "mic1", taps c "src" "mic2"))
  = Some (Some (2, [7; 8; 9; 10]), Some (8, [0; 0; 1; 0])).
Proof. vm_compute; reflexivity. Qed.
Example C39_shapes_example : @generators_shaped demo (fun _ => 1).
Proof. split; simpl; intros; auto. inversion H; subst; auto. Qed.
(** at time 4 the moving microphone is at 5: two paths are regenerated *)
Example C40_example : get (c0 <- ex_coll ;; c1 <- setup_ir c0 demo_info ;; update c1 4)
    (fun c => (taps c "src" "mic1", taps c "src" "mic2", taps c "spk" "mic2"))
  = Some (Some (2, [7; 8; 9; 10]), Some (8, [0; 0; 1; 0]), Some (8, [100; 101; 102; 103])).
Proof. vm_compute; reflexivity. Qed.

(** the demo collection meets the hypotheses of each theorem *)
Lemma ex_states : exists c0 c1 c2, ex_coll = Ok c0 /\ setup_ir c0 demo_info = Ok c1 /\ update c1 4 = Ok c2 /\ built (sized (fun _ => 1)) c0 /\ built (sized (fun _ => 1)) c1.
Proof.
  assert (K : get (c0 <- ex_coll ;; c1 <- setup_ir c0 demo_info ;; update c1 4) (fun c => c_src c) = Some ["src"; "spk"]) by (vm_compute; reflexivity).
  apply get_ex in K as (c2 & K & _). apply bind_ok in K as (c0 & H0 & K). apply bind_ok in K as (c1 & H1 & H2). exists c0, c1, c2.
  split; [exact H0|]. split; [exact H1|]. split; [exact H2|]. split; [|exact (ex_chain H0 H1)].
  unfold ex_coll in H0. apply bind_ok in H0 as (a & A & H0). apply bind_ok in H0 as (b & B & H0). apply bind_ok in H0 as (d & C & H0).
  eapply built_default; [|exact H0]. eapply built_type; [|exact C]. eapply built_path; [|exact B]. exact (ex_add A).
Qed.
Definition lone : res (coll demo) := c <- add_all (empty_coll ex_g) (filter (fun a => is_mic a) ex_arrays) ;; setup_ir c demo_info.
Example C40_no_source_meets : exists c, built (sized (fun _ => 1)) c /\ c_info c = Some demo_info /\ (forall k b, dget (c_arrays c) k = Some b -> is_mic b = true) /\ (exists a, dget (c_arrays c) "mic2" = Some a /\ a_traj a <> None) /\ update c 4 = Err UnboundLocalError.
Proof.
  assert (I : get lone (fun c => (c_info c, forallb (fun kv => is_mic (snd kv)) (c_arrays c), match dget (c_arrays c) "mic2" with Some a => dynamic a | None => false end)) = Some (Some demo_info, true, true)) by (vm_compute; reflexivity).
  apply get_ex in I as (c & H & I). injection I as I1 I2 I3. exists c.
  assert (B : built (sized (fun _ => 1)) c). { unfold lone in H. apply bind_ok in H as (c0 & H0 & H). eapply built_setup; [|exact H]. eapply add_all_built; [|constructor|exact H0]. repeat constructor; simpl; intros; auto; discriminate. }
  assert (K : forall k b, dget (c_arrays c) k = Some b -> is_mic b = true). { intros k b Hb. rewrite forallb_forall in I2. apply dget_In in Hb. exact (I2 _ Hb). }
  assert (X : exists a, dget (c_arrays c) "mic2" = Some a /\ a_traj a <> None). { assert (Y : forall o : option (arr Pos Src), match o with Some a => dynamic a | None => false end = true -> exists a, o = Some a /\ a_traj a <> None); [|exact (Y _ I3)]. intros [a|] Y; [|discriminate Y]. exists a. split; [reflexivity|]. unfold dynamic in Y. destruct (a_traj a); [intro X; discriminate X|discriminate Y]. }
  split; [exact B|]. split; [exact I1|]. split; [exact K|]. split; [exact X|]. destruct X as (a & Ha & Hm). eapply C40_no_source; [exact B|exact I1| |reflexivity|exact K|exact Ha|exact Hm]. vm_compute. discriminate.
Qed.
Example C37_collection_consistent_meets : exists c, add_all (empty_coll ex_g) ex_arrays = Ok c.
Proof. apply is_ok_ex. vm_compute. reflexivity. Qed.
Example C37_always_consistent_meets : exists c, built (sized (fun _ => 1)) c /\ c_src c = ["src"; "spk"].
Proof. destruct ex_built as (c & H & _ & K & _). exists c. split; [exact H|exact K]. Qed.
Lemma ex_arrays_of c0 : ex_coll = Ok c0 -> (exists a, dget (c_arrays c0) "src" = Some a /\ a_traj a = None /\ a_num a = 1) /\ (exists b, dget (c_arrays c0) "mic2" = Some b /\ a_traj b <> None /\ a_num b = 1) /\
  dget (c_arrays c0) "new" = None /\ c_src c0 = ["src"; "spk"] /\ c_mic c0 = ["mic1"; "mic2"] /\ lookup2 (c_ptypes c0) "src" "mic1" = Some "modified".
Proof.
  intros H. pose (ask := fun (f : coll demo -> bool) => get ex_coll f = Some true).
  assert (A : forall f : coll demo -> bool, ask f -> f c0 = true) by (intros f K; unfold ask in K; rewrite H in K; cbn [get] in K; injection K; auto).
  assert (K1 := A (fun c => match dget (c_arrays c) "src" with Some a => match a_traj a with None => a_num a =? 1 | _ => false end | None => false end) ltac:(vm_compute; reflexivity)).
  assert (K2 := A (fun c => match dget (c_arrays c) "mic2" with Some a => match a_traj a with None => false | _ => a_num a =? 1 end | None => false end) ltac:(vm_compute; reflexivity)).
  assert (K3 := A (fun c => match dget (c_arrays c) "new" with None => true | _ => false end) ltac:(vm_compute; reflexivity)).
  assert (K : get ex_coll (fun c => (c_src c, c_mic c, lookup2 (c_ptypes c) "src" "mic1")) = Some (["src"; "spk"], ["mic1"; "mic2"], Some "modified")) by (vm_compute; reflexivity).
  rewrite H in K. cbn [get] in K. injection K as K4 K5 K6. cbv beta in K1, K2, K3. clear A ask.
  destruct (dget (c_arrays c0) "src") as [a|]; [|discriminate K1]. destruct (dget (c_arrays c0) "mic2") as [b|]; [|discriminate K2].
  destruct (dget (c_arrays c0) "new"); [discriminate K3|]. destruct (a_traj a) eqn:Ta; [discriminate K1|]. destruct (a_traj b) eqn:Tb; [|discriminate K2].
  apply Z.eqb_eq in K1, K2.
  split; [exists a; auto|]. split; [exists b; rewrite Tb; split; [reflexivity|]; split; [discriminate|exact K2]|]. auto.
Qed.
Example C37_duplicate_rejected_meets : exists c b, dget (c_arrays c) (a_name (mk "src" KMic 0 None)) = Some b /\ ex_coll = Ok c.
Proof. destruct ex_states as (c0 & _ & _ & H & _). destruct (ex_arrays_of H) as ((a & A & _) & _). exists c0, a. split; [exact A|exact H]. Qed.
Example C37_new_accepted_meets : exists c, dget (c_arrays c) (a_name (mk "new" KMic 0 None)) = None /\ a_kind (mk "new" KMic 0 None) <> KOther /\ ex_coll = Ok c.
Proof. destruct ex_states as (c0 & _ & _ & H & _). destruct (ex_arrays_of H) as (_ & _ & A & _). exists c0. split; [exact A|]. split; [discriminate|exact H]. Qed.
Example C38_types_resolved_meets : exists c, built (sized (fun _ => 1)) c /\ c_src c = ["src"; "spk"] /\ c_mic c = ["mic1"; "mic2"].
Proof. destruct ex_built as (c & H & _ & K). exists c. split; [exact H|exact K]. Qed.
Example C38_set_type_meets : exists c c', ex_coll = Ok c /\ set_path_type c "src" "mic2" "direct" = Ok c'.
Proof.
  assert (K : get (c <- ex_coll ;; set_path_type c "src" "mic2" "direct") (fun c => c_src c) = Some ["src"; "spk"]) by (vm_compute; reflexivity).
  apply get_ex in K as (c' & K & _). apply bind_ok in K as (c & H & K). exists c, c'. split; [exact H|exact K].
Qed.
Example C39_path_accepted_meets : exists c c', built (sized (fun _ => 1)) c /\ set_prop_path c ex_user "src" "mic2" = Ok c'.
Proof.
  assert (K : get (c <- ex_coll ;; set_prop_path c ex_user "src" "mic2") (fun c => c_src c) = Some ["src"; "spk"]) by (vm_compute; reflexivity).
  apply get_ex in K as (c' & K & _). apply bind_ok in K as (c & H & K). destruct ex_states as (c0 & _ & _ & H0 & _ & _ & B & _). rewrite H in H0.
  assert (c = c0) by (injection H0; auto). subst c0. exists c, c'. split; [exact B|exact K].
Qed.
Example C39_path_stored_meets : exists c c', set_prop_path c ex_user "src" "mic2" = Ok c'.
Proof. destruct C39_path_accepted_meets as (c & c' & _ & H). exists c, c'. exact H. Qed.
Example C39_setup_ir_meets : exists c c', built (sized (fun _ => 1)) c /\ setup_ir c demo_info = Ok c'.
Proof. destruct ex_states as (c0 & c1 & _ & _ & H & _ & B & _). exists c0, c1. split; [exact B|exact H]. Qed.
Example C39_shapes_meets : @generators_shaped demo (fun _ => 1) /\ exists c p, built (sized (fun _ => 1)) c /\ lookup2 (c_paths c) "src" "mic1" = Some p.
Proof.
  split; [exact C39_shapes_example|]. destruct ex_states as (c0 & c1 & _ & H0 & H1 & _ & _ & B).
  assert (K : get (c0 <- ex_coll ;; setup_ir c0 demo_info) (fun c => match lookup2 (c_paths c) "src" "mic1" with Some _ => true | None => false end) = Some true) by (vm_compute; reflexivity).
  rewrite H0 in K. cbn [bind] in K. rewrite H1 in K. cbn [get] in K. destruct (lookup2 (c_paths c1) "src" "mic1") as [p|] eqn:Q; [|discriminate K]. exists c1, p. split; [exact B|exact Q].
Qed.
Definition none_array : arr Pos Src := mkArr "none" KMic 0 (0 : Pos) None [] None [] [].
Example C39_empty_array_fails_meets : exists c a b, built (fun _ => True) c /\ In "src" (c_src c) /\ In "none" (c_mic c) /\
  dget (c_arrays c) "src" = Some a /\ dget (c_arrays c) "none" = Some b /\ (a_num a = 0 \/ a_num b = 0).
Proof.
  assert (K : exists c, add_all (empty_coll ex_g) [mk "src" KFree 3 None; none_array] = Ok c) by (apply is_ok_ex; vm_compute; reflexivity).
  destruct K as (c & K). destruct (C37_collection_consistent _ _ K) as (_ & A & _). exists c, (mk "src" KFree 3 None), none_array.
  split; [eapply add_all_built; [|constructor|exact K]; repeat constructor|].
  split; [|split; [|split; [apply A; cbn; auto|split; [apply A; cbn; auto|right; reflexivity]]]].
  - clear A. unfold add_all in K. vm_compute in K. injection K as <-. left. reflexivity.
  - clear A. unfold add_all in K. vm_compute in K. injection K as <-. left. reflexivity.
Qed.
Example C40_other_kind_meets : let a := mkArr "field" KOther 1 (7 : Pos) (Some (fun t => t)) [] None [] [] in
  let c := set_info (fst (add_array (E := demo) (empty_coll ex_g) a)) demo_info in
  snd (add_array (E := demo) (empty_coll ex_g) a) = Err ValueError /\ c_arrays c = ([] ++ ("field", a) :: [])%list /\ dget (c_arrays c) "field" = Some a /\ array_update_freq demo_info <> 0 /\ 4 mod array_update_freq demo_info = 0 /\ update c 4 = Err ValueError.
Proof. cbv zeta. split; [reflexivity|]. split; [reflexivity|]. split; [reflexivity|]. split; [vm_compute; discriminate|]. split; reflexivity. Qed.
Example C40_not_set_up_meets : c_info (empty_coll (E := demo) ex_g) = None.
Proof. reflexivity. Qed.
Example C40_frequency_zero_meets : exists c : coll demo, let i := mkInfo 12 10 5 false true 0 100 343 3 "ism" [1; 1; 1] [0; 0; 0] 1 8 false 0 0 6 "pdf" 1 false in
  c_info c = Some i /\ array_update_freq i = 0 /\ c_src c = ["src"; "spk"].
Proof. destruct ex_built as (c & _ & H & K & _). eexists (set_info c _). cbv zeta. split; [reflexivity|]. split; [reflexivity|exact K]. Qed.
Example C40_no_update_in_between_meets : exists c, c_info c = Some demo_info /\ array_update_freq demo_info <> 0 /\ 3 mod array_update_freq demo_info <> 0 /\ c_src c = ["src"; "spk"].
Proof. destruct ex_built as (c & _ & H & K & _). exists c. split; [exact H|]. split; [vm_compute; discriminate|]. split; [vm_compute; discriminate|exact K]. Qed.
End Examples.

Print Assumptions C37_collection_consistent.
Print Assumptions C37_always_consistent.
Print Assumptions C37_duplicate_rejected.
Print Assumptions C37_new_accepted.
Print Assumptions C38_types_resolved.
Print Assumptions C38_set_type.
Print Assumptions C39_path_accepted.
Print Assumptions C39_path_stored.
Print Assumptions C39_setup_ir.
Print Assumptions C39_generation_succeeds.
Print Assumptions C39_shapes.
Print Assumptions C39_empty_array_fails.
Print Assumptions C40_no_update_in_between.
Print Assumptions C40_frequency_zero.
Print Assumptions C40_not_set_up.
Print Assumptions C37_kinds.
Print Assumptions C40_no_source.
Print Assumptions C40_other_kind.
Print Assumptions C40_update_step.
Print Assumptions C40_paths_after_update.
Print Assumptions C40_user_path_must_not_move.
