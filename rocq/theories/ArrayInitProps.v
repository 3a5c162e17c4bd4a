(** C41: groups of an array, and the other attributes set by its constructor. *)
Require Import Verif.PyBase Verif.PyLemmas Verif.ArrayInitModel Verif.ArrayProofs.
Set Implicit Arguments.
Arguments Z.add : simpl never.
Arguments Z.sub : simpl never.

(** the directivities of the documentation *)
Definition known_directivities : list string := ["omni"; "cardioid"; "hypercardioid"; "supercardioid"; "bidirectional"]%string.
Lemma known_eq : known_directivities = directivities.
Proof. reflexivity. Qed.
Opaque directivities known_directivities smem.
Section C41.
Variable P : Type.
Notation grid := (grid P).
Notation rows := (@gr_rows P).

Lemma cumsum_len l : forall a, zlen (cumsum a l) = zlen l.
Proof. induction l as [|x l IH]; simpl; intros; auto. rewrite !zlen_cons, IH; auto. Qed.

Lemma mapM_shift {A} (f g : Z -> res A) n : forall a, (forall i, 0 <= i < n -> f (i + 1 + a) = g (i + a)) ->
  mapM f (zrange (a + 1) (a + n + 1)) = mapM g (zrange a (a + n)).
Proof.
  intros a H. replace (zrange (a + 1) (a + n + 1)) with (map (fun z => z + 1) (zrange a (a + n))).
  - assert (HI : forall z, In z (zrange a (a + n)) -> f (z + 1) = g z).
    { intros z Hz. apply In_zrange in Hz. rewrite <- (Z.sub_simpl_r z a), <- H by lia. f_equal; lia. }
    revert HI. induction (zrange a (a + n)) as [|z l IH]; simpl; intros HI; auto.
    rewrite HI by auto. destruct (g z); simpl; auto. rewrite IH; auto.
  - unfold zrange. rewrite map_map. replace (a + n + 1 - (a + 1)) with (a + n - a) by lia. apply map_ext; intros; lia.
Qed.

Fixpoint split_at (a : Z) (l : list (list (list P))) : list (list Z) :=
  match l with [] => [] | x :: r => zrange a (a + zlen x) :: split_at (a + zlen x) r end.

Lemma group_idxs_gen (l : list grid) : forall a,
  mapM (fun i => match zget (a :: cumsum a (map (fun g => zlen (rows g)) l)) i, zget (a :: cumsum a (map (fun g => zlen (rows g)) l)) (i + 1) with
                 | Some a, Some b => Ok (zrange a b)
                 | _, _ => Err IndexError
                 end) (zrange 0 (zlen l)) = Ok (split_at a (map rows l)).
Proof.
  induction l as [|g l IH]; intros a; simpl; auto.
  rewrite zlen_cons. rewrite zrange_cons by (pose proof (zlen_nonneg l); lia). simpl.
  specialize (IH (a + zlen (rows g))).
  replace (zrange (0 + 1) (1 + zlen l)) with (zrange (0 + 1) (0 + zlen l + 1)) by (f_equal; lia).
  rewrite (@mapM_shift _ _ (fun i => match zget (a + zlen (rows g) :: cumsum (a + zlen (rows g)) (map (fun g => zlen (rows g)) l)) i,
      zget (a + zlen (rows g) :: cumsum (a + zlen (rows g)) (map (fun g => zlen (rows g)) l)) (i + 1) with
                 | Some a, Some b => Ok (zrange a b)
                 | _, _ => Err IndexError
                 end) (zlen l) 0).
  - change (0 + zlen l) with (zlen l). rewrite IH. auto.
  - intros i Hi. rewrite !zget_cons by lia.
    replace (i + 1 + 0 =? 0) with false by lia. replace (i + 1 + 0 + 1 =? 0) with false by lia.
    replace (i + 1 + 0 - 1) with (i + 0) by lia. replace (i + 1 + 0 + 1 - 1) with (i + 0 + 1) by lia. auto.
Qed.
Lemma group_idxs_eq (segs : list grid) : group_idxs segs = Ok (split_at 0 (map rows segs)).
Proof.
  unfold group_idxs, num_in_group. simpl cumsum. change (0 + 0) with 0. rewrite zlen_cons, cumsum_len.
  replace (1 + zlen (map (fun g => zlen (rows g)) segs) - 1) with (zlen segs) by (unfold zlen; rewrite map_length; lia).
  apply group_idxs_gen.
Qed.
Lemma split_at_len (l : list (list (list P))) : forall a, zlen (split_at a l) = zlen l.
Proof. induction l; simpl; intros; auto. rewrite !zlen_cons, IHl; auto. Qed.
Lemma split_at_concat (l : list (list (list P))) : forall a, concat (split_at a l) = zrange a (a + zlen (concat l)).
Proof.
  induction l as [|x l IH]; simpl; intros a. { rewrite zlen_nil, zrange_empty by lia; auto. }
  rewrite IH, zlen_app. pose proof (zlen_nonneg x). pose proof (zlen_nonneg (concat l)).
  rewrite <- zrange_app by lia. f_equal; lia.
Qed.
Lemma split_at_rows (l : list (list (list P))) : forall pre k g js, zget l k = Some g -> zget (split_at (zlen pre) l) k = Some js ->
  map (zget (pre ++ concat l)) js = map (@Some _) g.
Proof.
  induction l as [|x l IH]; intros pre k g js H1 H2. { unfold zget in H1; destruct (k <? 0), (Z.to_nat k); discriminate. }
  cbn [split_at] in H2. rewrite zget_cons in H1. rewrite zget_cons in H2. cbn [concat]. destruct (k =? 0).
  - inversion H1; inversion H2; subst. apply zget_ext; intros i. rewrite !zget_map, zget_zrange.
    destruct (Z.leb_spec 0 i), (Z.ltb_spec i (zlen pre + zlen g - zlen pre)); simpl.
    2,3,4: destruct (zget g i) eqn:Q; auto; apply zget_some_range in Q; lia.
    rewrite zget_app. replace (zlen pre + i <? zlen pre) with false by lia. rewrite zget_app.
    replace (zlen pre + i - zlen pre <? zlen g) with true by lia. replace (zlen pre + i - zlen pre) with i by lia.
    destruct (zget g i) eqn:Q; auto. exfalso. apply zget_none_range in Q; lia.
  - rewrite app_assoc. eapply IH; eauto. rewrite zlen_app; auto.
Qed.

(** An array made from a list of position arrays: the groups are the consecutive blocks of indices
    0, 1, .., num-1, one per position array, and picking a group's rows out of the array's positions
    gives back that position array. *)
Theorem C41_groups_partition (un : list P -> bool) (segs : list grid) dt dd a :
  array_init un (PList segs) dt dd = Ok a ->
  exists idx, in_group_idxs a = Some idx /\
    in_num_groups a = zlen segs /\ zlen idx = zlen segs /\
    concat idx = zrange 0 (in_num a) /\
    in_num a = zlen (gr_rows (in_pos a)) /\
    in_segments a = segs /\
    gr_rows (in_pos a) = concat (map rows segs) /\
    (forall k g js, zget segs k = Some g -> zget idx k = Some js ->
       map (zget (gr_rows (in_pos a))) js = map (@Some _) (gr_rows g)).
Proof.
  unfold array_init. rewrite group_idxs_eq. cbn [bind].
  destruct (concatenate segs) as [p|] eqn:Q; cbn [bind]; [|discriminate].
  intros H. apply bind_ok in H as (t & Ht & H). inversion H; subst; clear H. simpl.
  assert (Hp : rows p = concat (map rows segs)).
  { unfold concatenate in Q. destruct segs as [|g r]; [discriminate|]. destruct (forallb _ r); inversion Q; auto. }
  exists (split_at 0 (map rows segs)). repeat split; auto.
  - rewrite split_at_len. unfold zlen; rewrite map_length; auto.
  - rewrite split_at_concat, Hp; auto.
  - intros k g js H1 H2. rewrite Hp. apply (@split_at_rows (map rows segs) [] k (rows g) js); auto.
    rewrite zget_map, H1; auto.
Qed.

(** The constructor succeeds exactly for position arrays of one common width together with either no
    directivity at all, or a known directivity and a unit vector for every element; the number of
    elements is the number of rows. *)
Theorem C41_constructor (un : list P -> bool) pos dt dd :
  let good_dir num := match dt, dd with
    | None, None => True
    | Some t, Some d => zlen t = num /\ zlen (gr_rows d) = num /\ (forall x, In x t -> In x known_directivities) /\
                        (forall r, In r (gr_rows d) -> un r = true)
    | _, _ => False end in
  match pos with
  | PList segs =>
    (exists a, array_init un pos dt dd = Ok a /\ in_dynamic a = false) <->
    segs <> [] /\ (forall g h, In g segs -> In h segs -> gr_cols g = gr_cols h) /\
    good_dir (zlen (concat (map rows segs)))
  | PArray g => 
    (exists a, array_init un pos dt dd = Ok a /\ in_pos a = g /\ in_group_idxs a = None /\ in_num_groups a = 1 /\
               in_dynamic a = false) <-> good_dir (zlen (gr_rows g))
  | PTrajectory tr =>
    (exists a, array_init un pos dt dd = Ok a /\ in_pos a = tr 0 /\ in_group_idxs a = None /\ in_num_groups a = 1 /\ in_dynamic a = true) <-> good_dir (zlen (gr_rows (tr 0)))
  | POther _ => array_init un pos dt dd = Err ValueError
  end.
Proof.
  rewrite known_eq. intros good_dir.
  assert (D : forall num, (exists t, directivity un num dt dd = Ok t) <-> good_dir num).
  { intros num. unfold directivity, good_dir. destruct dt as [t|], dd as [d|]; try (split; [intros [? H]; discriminate|tauto]).
    2:{ split; eauto. }
    unfold passert. destruct (Z.eqb_spec (zlen t) num); simpl; [|split; [intros [? H]; discriminate|tauto]].
    destruct (Z.eqb_spec (zlen (gr_rows d)) num); simpl; [|split; [intros [? H]; discriminate|tauto]].
    destruct (forallb _ t) eqn:Q1; simpl.
    2:{ split; [intros [? H]; discriminate|]. intros (_ & _ & H & _). rewrite (proj2 (forallb_forall _ _)) in Q1; [discriminate|].
        intros x Hx. apply smem_spec; auto. }
    destruct (forallb un _) eqn:Q2; simpl.
    2:{ split; [intros [? H]; discriminate|]. intros (_ & _ & _ & H). rewrite (proj2 (forallb_forall _ _)) in Q2; [discriminate|auto]. }
    rewrite forallb_forall in Q1, Q2. split; eauto. intros _. repeat split; auto. intros x Hx. apply smem_spec; auto. }
  destruct pos as [segs|g|tr|]; unfold array_init; cbn [bind]; auto.
  - rewrite group_idxs_eq. cbn [bind]. rewrite <- D. unfold concatenate. destruct segs as [|g r].
    { split; [intros (? & H & _); discriminate|tauto]. }
    destruct (forallb _ r) eqn:Q; cbn [bind].
    + rewrite forallb_forall in Q. cbn [gr_rows]. split.
      * intros (a & H & _). split; [discriminate|]. apply bind_ok in H as (t & Ht & _). split; [|eauto].
        assert (K : forall h, In h (g :: r) -> gr_cols h = gr_cols g) by (intros h [->|Hh]; auto; apply Q in Hh; lia).
        intros h1 h2 A1 A2. rewrite (K h1), (K h2); auto.
      * intros (_ & _ & t & Ht). rewrite Ht. simpl. eexists; split; reflexivity.
    + split; [intros (? & H & _); discriminate|]. intros (_ & H & _).
      rewrite (proj2 (forallb_forall _ _)) in Q; [discriminate|]. intros h Hh. apply Z.eqb_eq, H; simpl; auto.
  - rewrite <- D. split.
    + intros (a & H & _). apply bind_ok in H as (t & Ht & _); eauto.
    + intros [t Ht]. rewrite Ht. simpl. eexists; repeat split; reflexivity.
  - rewrite <- D. split.
    + intros (a & H & _). apply bind_ok in H as (t & Ht & _); eauto.
    + intros [t Ht]. rewrite Ht. simpl. eexists; repeat split; reflexivity.
Qed.

(** The other attributes: without directivity arguments every element is omnidirectional, otherwise the given types are
    kept. *)
Theorem C41_directivity (un : list P -> bool) pos dt dd a : array_init un pos dt dd = Ok a ->
  in_num a = zlen (gr_rows (in_pos a)) /\ zlen (in_dirtype a) = in_num a /\ (dt = None -> forall i, 0 <= i < in_num a -> zget (in_dirtype a) i = Some "omni"%string) /\
  (forall t, dt = Some t -> in_dirtype a = t).
Proof.
  unfold array_init. intros H. apply bind_ok in H as (b & _ & H). destruct b as ((((idx & ng) & p) & segs) & dyn). cbv zeta in H.
  apply bind_ok in H as (t & Ht & H). injection H as <-. cbn [in_num in_pos in_dirtype]. split; auto. unfold directivity in Ht. destruct dt as [l|], dd as [d|]; try discriminate.
  - unfold passert in Ht. destruct (Z.eqb_spec (zlen l) (zlen (rows p))); [|discriminate]. cbn [bind] in Ht.
    do 3 (apply bind_ok in Ht as (? & _ & Ht)). injection Ht as <-. split; auto. split; [discriminate|]. intros t' Q. injection Q as <-. auto.
  - injection Ht as <-. pose proof (zlen_nonneg (rows p)). split; [rewrite zlen_zrep; lia|]. split; [|discriminate]. intros _ i Hi. rewrite zget_zrep. replace ((0 <=? i) && (i <? zlen (rows p))) with true by lia. auto.
Qed.

(** Whatever is refused is refused with a ValueError, if it is the positions, and with an AssertionError, if it is the directivities. *)
Theorem C41_refused (un : list P -> bool) pos dt dd e : array_init un pos dt dd = Err e ->
  let bad_positions := match pos with PList segs => segs = [] \/ exists g h, In g segs /\ In h segs /\ gr_cols g <> gr_cols h | POther _ => True | _ => False end in
  e = ValueError /\ bad_positions \/ e = AssertionError /\ ~ bad_positions.
Proof.
  assert (D : forall num e', directivity un num dt dd = Err e' -> e' = AssertionError).
  { intros num e'. unfold directivity, passert. destruct dt as [t|], dd as [d|]; try (intros H; injection H; auto; fail). 2: discriminate.
    destruct (zlen t =? num); cbn [bind]; [|intros H; injection H; auto]. destruct (zlen (gr_rows d) =? num); cbn [bind]; [|intros H; injection H; auto].
    destruct (forallb _ t); cbn [bind]; [|intros H; injection H; auto]. destruct (forallb un _); cbn [bind]; [discriminate|intros H; injection H; auto]. }
  destruct pos as [segs|g|tr|]; unfold array_init; cbn [bind]; intros H; cbv zeta.
  - rewrite group_idxs_eq in H. cbn [bind] in H. unfold concatenate in H. destruct segs as [|g r].
    { cbn [bind] in H. injection H as <-. left. auto. }
    destruct (forallb _ r) eqn:Q; cbn [bind] in H.
    + right. rewrite forallb_forall in Q. split.
      * cbn [gr_rows] in H. destruct (directivity _ _ _ _) eqn:Q2; [discriminate|]. injection H as <-. eapply D; eauto.
      * intros [K|(h1 & h2 & A1 & A2 & A3)]; [discriminate|]. apply A3.
        assert (K : forall h, In h (g :: r) -> gr_cols h = gr_cols g) by (intros h [->|Hh]; auto; apply Q in Hh; lia). rewrite (K h1), (K h2); auto.
    + injection H as <-. left. split; [reflexivity|]. right. assert (K : exists h, In h r /\ gr_cols h <> gr_cols g).
      { clear -Q. induction r as [|h r IH]; [discriminate|]. cbn [forallb] in Q. destruct (Z.eqb_spec (gr_cols h) (gr_cols g)) as [E|E]; [|exists h; simpl; auto]. cbn [andb] in Q. destruct (IH Q) as (k & ? & ?). exists k; simpl; auto. }
      destruct K as (h & K1 & K2). exists h, g. simpl; auto.
  - right. destruct (directivity _ _ _ _) eqn:Q2; [discriminate|]. injection H as <-. split; [eapply D; eauto|tauto].
  - right. destruct (directivity _ _ _ _) eqn:Q2; [discriminate|]. injection H as <-. split; [eapply D; eauto|tauto].
  - injection H as <-. left. auto.
Qed.

(** [set_groups] replaces the groups and their number, and nothing else. *)
Theorem C41_set_groups (a : init P) idx : let b := set_groups a idx in
  in_group_idxs b = Some idx /\ in_num_groups b = zlen idx /\
  in_pos b = in_pos a /\ in_segments b = in_segments a /\ in_dynamic b = in_dynamic a /\ in_num b = in_num a /\ in_dirtype b = in_dirtype a.
Proof. repeat split. Qed.

(** A source is only accepted by an array with as many elements as the source has channels. *)
Theorem C41_source_matches (a : init P) n : set_source_check a n = Ok tt <-> n = in_num a.
Proof. unfold set_source_check, passert. destruct (Z.eqb_spec n (in_num a)); split; auto; try discriminate; contradiction. Qed.
End C41.

(** groups set by hand are not checked: they may overlap and leave elements out *)
Theorem C41_set_groups_unchecked_refuted :
  exists (a : init Z) idx, in_group_idxs (set_groups a idx) = Some idx /\ in_num (set_groups a idx) = 3 /\
    ~ (concat idx = zrange 0 3) /\ ~ NoDup (concat idx).
Proof.
  exists (mkInit None 1 (mkGrid 1 [[0]; [1]; [2]]) [] false 3 []), [[0]; [0; 1]].
  repeat split; try discriminate. simpl. intros H. inversion H; subst. apply H2; simpl; auto.
Qed.

(** Three arrays of 2, 0 and 1 rows. *)
Example C41_example :
  let g rows := mkGrid 2 rows in
  exists a, array_init (fun _ => true) (PList [g [[1; 2]; [3; 4]]; g []; g [[5; 6]]]) None None = Ok a /\
    in_group_idxs a = Some [[0; 1]; []; [2]] /\ in_num a = 3.
Proof. eexists; repeat split; vm_compute; reflexivity. Qed.
Example C41_constructor_example :
  (exists a, array_init (fun _ => true) (PArray (mkGrid 1 [[7]])) (Some ["cardioid"%string]) (Some (mkGrid 1 [[1]])) = Ok a) /\
  array_init (fun _ => true) (PArray (mkGrid 1 [[7]])) (Some ["cardioid"%string]) None = Err AssertionError.
Proof. split; [eexists|]; vm_compute; reflexivity. Qed.
Example C41_directivity_example :
  exists a, array_init (fun _ => true) (PArray (mkGrid 1 [[7]; [8]])) None None = Ok a /\ in_dirtype a = ["omni"; "omni"]%string /\ in_segments a = [mkGrid 1 [[7]; [8]]].
Proof. eexists; repeat split; vm_compute; reflexivity. Qed.
Example C41_set_groups_example :
  exists a, array_init (fun _ => true) (PArray (mkGrid 1 [[7]; [8]])) None None = Ok a /\ in_num_groups a = 1 /\
    in_num_groups (set_groups a [[0]; [1]]) = 2 /\ in_group_idxs (set_groups a [[0]; [1]]) = Some [[0]; [1]].
Proof. eexists; repeat split; vm_compute; reflexivity. Qed.
Print Assumptions C41_directivity.
Print Assumptions C41_refused.
Print Assumptions C41_set_groups.
Print Assumptions C41_groups_partition.
Print Assumptions C41_constructor.
Print Assumptions C41_source_matches.
Print Assumptions C41_set_groups_unchecked_refuted.
