(** C100: directions of directional microphones in pyroomacoustics. *)
Require Import Verif.PyBase Verif.PyLemmas Verif.SineModel Verif.TrajModel Verif.RegionModel Verif.PointsModel Verif.PointsProps Verif.DirModel Verif.ArrayProofs Verif.PlotProps.
From Coq Require Import Reals Lra.
Set Implicit Arguments.
Local Open Scope string_scope.
Local Open Scope list_scope.
Local Open Scope R_scope.

(** the unit vector of an orientation, as pyroomacoustics defines azimuth and colatitude *)
Definition orientation (o : dir_obj) (x y z : R) : Prop :=
  x = cos (azimuth o) * sin (colatitude o) /\ y = sin (azimuth o) * sin (colatitude o) /\ z = cos (colatitude o).
Definition unit_vector (p : R * R * R) : Prop := fst (fst p) ^ 2 + snd (fst p) ^ 2 + snd p ^ 2 = 1.

Lemma one_direction p r : unit_vector p -> exists o, cardoid_to_pyroomacoustics 3 (map row3 (p :: r)) = Ok o /\ orientation o (fst (fst p)) (snd (fst p)) (snd p).
Proof.
  intros U. unfold cardoid_to_pyroomacoustics. rewrite Z.eqb_refl. cbn [passert bind]. rewrite cart2spherical_eq. cbn [map]. eexists. split; [reflexivity|]. destruct p as [[x y] z]. unfold unit_vector, orientation in *. cbn [fst snd azimuth colatitude nth] in *.
  destruct (spherical_of x y z) as (_ & _ & _ & A & B & C). assert (E : norm [x; y; z] = 1). { unfold norm, rsum. cbn [map fold_right]. rewrite <- sqrt_1. f_equal. lra. }
  rewrite E in A, B, C. lra.
Qed.

(** C100.  Every cardioid microphone gets an object that is oriented along its direction, a unit vector. *)
Theorem C100_cardioid (dirs : list (R * R * R)) : dirs <> [] -> (forall p, In p dirs -> unit_vector p) ->
  exists l, directionality_arg_to_pyroomacoustics (Some (map (fun _ => "cardioid") dirs)) 3 (Some (map row3 dirs)) = Ok (Some l) /\
    Forall2 (fun p o => orientation o (fst (fst p)) (snd (fst p)) (snd p)) dirs l.
Proof.
  intros NE U. unfold directionality_arg_to_pyroomacoustics. rewrite zlen_map. destruct dirs as [|p [|q r]]; [congruence| |].
  - change (1 <? zlen [p])%Z with false. cbn [map]. cbn iota. rewrite String.eqb_refl. destruct (@one_direction p []) as (o & E & O); [apply U; left; auto|]. cbn [map] in E. rewrite E. cbn [bind]. exists [o]. split; [auto|]. constructor; [auto|constructor].
  - set (dirs := p :: q :: r) in *. replace (1 <? zlen dirs)%Z with true by (unfold dirs; rewrite !zlen_cons; pose proof (zlen_nonneg r); lia). replace (forallb (fun dt => String.eqb dt "omni") (map (fun _ => "cardioid") dirs)) with false by reflexivity.
    replace (forallb (fun dt => String.eqb dt "cardioid") (map (fun _ => "cardioid") dirs)) with true by (symmetry; apply forallb_forall; intros x I; apply in_map_iff in I as (? & <- & _); auto).
    assert (G : forall i x, zget dirs i = Some x -> exists o, cardoid_to_pyroomacoustics 3 (pyslice (map row3 dirs) i (i + 1)) = Ok o /\ orientation o (fst (fst x)) (snd (fst x)) (snd x)).
    { intros i x H. pose proof (zget_some_range _ _ H). replace (pyslice (map row3 dirs) i (i + 1)) with (map row3 [x]); [apply one_direction; apply U; eapply zget_In; eauto|].
      assert (RM : (0 <= i <= i + 1 /\ i + 1 <= zlen (map row3 dirs))%Z) by (rewrite zlen_map; lia). symmetry. apply zget_ext_range; [rewrite zlen_pyslice_in by apply RM; change (zlen (map row3 [x])) with 1%Z; lia|]. intros k Hk. rewrite zlen_pyslice_in in Hk by apply RM. assert (k = 0%Z) as -> by lia. rewrite zget_pyslice_in by apply RM. replace ((0 <=? 0) && (0 <? i + 1 - i))%Z%bool with true by lia. rewrite Z.add_0_r, zget_map, H. reflexivity. }
    destruct (@mapM_total _ _ (fun i => cardoid_to_pyroomacoustics 3 (pyslice (map row3 dirs) i (i + 1))) (zrange 0 (zlen dirs))) as [l HL].
    { intros i I. apply In_zrange in I. destruct (zget dirs i) as [x|] eqn:E; [|apply zget_none_range in E; lia]. destruct (G _ _ E) as (o & O & _). eauto. }
    rewrite HL. cbn [bind]. exists l. split; auto. pose proof (mapM_zlen _ _ HL) as LL. rewrite zlen_zrange in LL. pose proof (zlen_nonneg dirs).
    assert (K : forall (a : list (R * R * R)) (b : list dir_obj), zlen b = zlen a -> (forall i x o, zget a i = Some x -> zget b i = Some o -> orientation o (fst (fst x)) (snd (fst x)) (snd x)) -> Forall2 (fun p o => orientation o (fst (fst p)) (snd (fst p)) (snd p)) a b).
    { clear. induction a as [|x a IH]; intros b L H; destruct b as [|o b]; rewrite ?zlen_cons, ?zlen_nil in L; [constructor|pose proof (zlen_nonneg b); lia|pose proof (zlen_nonneg a); lia|]. constructor; [apply (H 0%Z); reflexivity|]. apply IH; [lia|]. intros i y o' Hy Ho. pose proof (zget_some_range _ _ Hy). apply (H (i + 1)%Z); rewrite zget_cons; replace (i + 1 =? 0)%Z with false by lia; rewrite Z.add_simpl_r; auto. }
    apply K; [lia|]. intros i x o Hx Ho. destruct (mapM_zget_back _ _ _ HL Ho) as (k & Hk & E). rewrite zget_zrange in Hk. destruct (_ && _)%bool; [|discriminate]. injection Hk as <-. rewrite Z.add_0_l in E. destruct (G _ _ Hx) as (o' & E' & O'). rewrite E in E'. injection E' as ->. auto.
Qed.
(** Omnidirectional microphones, and microphones without a type and direction, get no object *)
Theorem C100_omni types width dirs : types <> [] -> (forall t, In t types -> t = "omni") -> directionality_arg_to_pyroomacoustics (Some types) width dirs = Ok None.
Proof.
  intros NE H. unfold directionality_arg_to_pyroomacoustics. destruct (1 <? zlen types)%Z.
  - replace (forallb _ _) with true; auto. symmetry. apply forallb_forall. intros t I. rewrite (H t I). auto.
  - destruct types as [|t r]; [congruence|]. rewrite (H t (or_introl eq_refl)). auto.
Qed.
Theorem C100_none width : directionality_arg_to_pyroomacoustics None width None = Ok None /\ forall rows, directionality_arg_to_pyroomacoustics None width (Some rows) = Err AssertionError.
Proof. split; auto. Qed.
(** All other types that an array accepts, and mixtures, are refused *)
Theorem C100_others_refuted types width dirs : types <> [] -> (exists t, In t types /\ t <> "omni") -> (exists t, In t types /\ t <> "cardioid") ->
  directionality_arg_to_pyroomacoustics (Some types) width dirs = Err NotImplementedError.
Proof.
  intros NE (t & It & Nt) (s & Is & Ns). unfold directionality_arg_to_pyroomacoustics. destruct (Z.ltb_spec 1 (zlen types)) as [L|L].
  - assert (A : forall w t, In t types -> t <> w -> forallb (fun dt => String.eqb dt w) types = false). { intros w t' I N. apply Bool.not_true_is_false. rewrite forallb_forall. intros H. apply N. apply String.eqb_eq. auto. }
    rewrite (A "omni" t It Nt), (A "cardioid" s Is Ns). auto.
  - destruct types as [|x [|y r]]; [congruence| |rewrite !zlen_cons in L; pose proof (zlen_nonneg r); lia]. destruct It as [->|[]]. destruct Is as [->|[]]. apply String.eqb_neq in Nt as ->. apply String.eqb_neq in Ns as ->. auto.
Qed.

(** C100.  What is refused: a list of types without elements, and cardioid microphones without directions or whose directions are not rows of three numbers. *)
Theorem C100_refused width dirs : directionality_arg_to_pyroomacoustics (Some []) width dirs = Err IndexError /\
  directionality_arg_to_pyroomacoustics (Some ["cardioid"]) width None = Err AttributeError /\
  (forall rows, width <> 3%Z -> directionality_arg_to_pyroomacoustics (Some ["cardioid"]) width (Some rows) = Err AssertionError) /\
  forall types, (1 < zlen types)%Z -> (forall t, In t types -> t = "cardioid") ->
    directionality_arg_to_pyroomacoustics (Some types) width None = Err TypeError /\
    forall rows, width <> 3%Z -> directionality_arg_to_pyroomacoustics (Some types) width (Some rows) = Err AssertionError.
Proof.
  split; [reflexivity|]. split; [reflexivity|]. split.
  { intros rows Hw. cbn [directionality_arg_to_pyroomacoustics]. cbn. unfold cardoid_to_pyroomacoustics, passert. apply Z.eqb_neq in Hw. rewrite Hw. reflexivity. }
  intros types Hl Ht. unfold directionality_arg_to_pyroomacoustics. apply Z.ltb_lt in Hl as Hl'. rewrite Hl'.
  assert (F : forallb (fun dt => String.eqb dt "omni") types = false). { destruct types as [|t r]; [cbn in Hl; lia|]. cbn [forallb]. rewrite (Ht t (or_introl eq_refl)). reflexivity. }
  assert (F2 : forallb (fun dt => String.eqb dt "cardioid") types = true) by (apply forallb_forall; intros t Hin; rewrite (Ht t Hin); reflexivity).
  rewrite F, F2. split; [reflexivity|]. intros rows Hw. rewrite zrange_cons by lia. cbn [mapM]. unfold cardoid_to_pyroomacoustics at 1, passert. apply Z.eqb_neq in Hw. rewrite Hw. reflexivity.
Qed.
(** two cardioid microphones *)
Example C100_example : (forall p, In p [(1, 0, 0); (0, 0, -1)] -> unit_vector p) /\
  (exists l, directionality_arg_to_pyroomacoustics (Some ["cardioid"; "cardioid"]) 3 (Some [[1; 0; 0]; [0; 0; -1]]) = Ok (Some l) /\ zlen l = 2%Z) /\
  directionality_arg_to_pyroomacoustics (Some ["cardioid"; "omni"]) 3 (Some [[1; 0; 0]; [0; 0; -1]]) = Err NotImplementedError.
Proof.
  assert (U : forall p, In p [(1, 0, 0); (0, 0, -1)] -> unit_vector p) by (intros p [<-|[<-|[]]]; unfold unit_vector; cbn [fst snd]; ring).
  split; [auto|]. split; [|reflexivity]. destruct (@C100_cardioid [(1, 0, 0); (0, 0, -1)]) as (l & H & F); [discriminate|auto|]. exists l. split; [exact H|]. inversion F as [|? ? ? ? _ F1]. inversion F1 as [|? ? ? ? _ F2]. inversion F2. reflexivity.
Qed.

Print Assumptions C100_cardioid.
Print Assumptions C100_omni.
Print Assumptions C100_none.
Print Assumptions C100_others_refuted.
Print Assumptions C100_refused.
