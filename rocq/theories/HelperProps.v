(** C121-C124: helpers for means, legends and drawings. *)
Require Import Verif.PyBase Verif.PyLemmas Verif.PlotModel Verif.PlotProps Verif.ExportModel Verif.FigModel Verif.FigProps Verif.HelperModel.
From Coq Require Import Reals Lra Permutation Sorting.Sorted.
Local Open Scope string_scope.
Local Open Scope list_scope.
Local Open Scope Z_scope.

(* ------------------------------------------------------------------ C121 *)
(** The values of a channel at the times a, ..., b - 1, as far as there are any *)
Definition values_at {A} (ch : list (option A)) (a b : Z) : list A :=
  flat_map (fun t => match zget ch t with Some (Some v) => [v] | _ => [] end) (zrange a b).
(** m is the mean of the values l, NaN (None) if there are none *)
Definition is_mean (m : option R) (l : list R) : Prop :=
  match m with None => l = [] | Some m => l <> [] /\ (m * IZR (zlen l) = fold_right Rplus 0 l)%R end.

Lemma np_mean_is l : is_mean (np_mean l) l.
Proof.
  unfold np_mean, is_mean. destruct l as [|x l]; [reflexivity|]. split; [discriminate|]. change (fold_right Rplus 0%R (x :: l)) with (rsum_ (x :: l)). field.
  apply not_0_IZR. rewrite zlen_cons. pose proof (zlen_nonneg l). lia.
Qed.
Lemma known_cons {A} (ch : list (option A)) chs : known (ch :: chs) = known [ch] ++ known chs.
Proof. unfold known. cbn [concat]. rewrite app_nil_r. apply flat_map_app. Qed.
Lemma known_one {A} (ch : list (option A)) : known [ch] = flat_map (fun v => match v with Some x => [x] | None => [] end) ch.
Proof. unfold known. cbn [concat]. rewrite app_nil_r. reflexivity. Qed.
Lemma flat_map_none {A B} (f : A -> list B) l : (forall x, In x l -> f x = []) -> flat_map f l = [].
Proof. intros H. induction l as [|x l IH]; auto. cbn [flat_map]. rewrite H by (left; auto). apply IH. intros y I. apply H. right. auto. Qed.
Lemma flat_map_map' {A B C} (f : A -> B) (g : B -> list C) l : flat_map g (map f l) = flat_map (fun x => g (f x)) l.
Proof. induction l as [|x l IH]; cbn; [reflexivity|]. rewrite IH. reflexivity. Qed.
Lemma slice_values {A} (ch : list (option A)) a b lo : 0 <= b -> (0 <= a /\ lo = a \/ a < 0 /\ zlen ch + a <= 0 /\ lo = 0) -> known [pyslice ch a b] = values_at ch lo b.
Proof.
  intros Hb Ha. rewrite known_one. unfold values_at. pose proof (zlen_nonneg ch) as N.
  assert (E : norm_idx (zlen ch) a = Z.min lo (zlen ch)). { unfold norm_idx. destruct (Z.ltb_spec a 0); lia. }
  assert (E2 : norm_idx (zlen ch) b = Z.min b (zlen ch)). { unfold norm_idx. destruct (Z.ltb_spec b 0); lia. }
  destruct (Z.le_gt_cases b lo) as [L|L].
  { rewrite zrange_empty by lia. unfold pyslice. rewrite E, E2. replace (Z.to_nat _) with 0%nat by lia. reflexivity. }
  destruct (Z.le_gt_cases (zlen ch) lo) as [L2|L2].
  { unfold pyslice. rewrite E, E2. replace (Z.to_nat (_ - _)) with 0%nat by lia. cbn [firstn flat_map]. symmetry. apply flat_map_none. intros t I. apply In_zrange in I. rewrite zget_out by lia. reflexivity. }
  set (hi := Z.min b (zlen ch)) in *.
  rewrite (@zrange_app lo hi b) by lia. rewrite flat_map_app. rewrite (flat_map_none _ (zrange hi b)), app_nil_r.
  2:{ intros t I. apply In_zrange in I. rewrite zget_out by lia. reflexivity. }
  assert (S : map Some (pyslice ch a b) = map (fun t => zget ch t) (zrange lo hi)).
  { apply zget_ext. intros i. rewrite !zget_map, zget_pyslice, zget_zrange, E, E2. cbv zeta. fold hi. replace (Z.min lo (zlen ch)) with lo by lia.
    destruct (Z.leb_spec 0 i); cbn [andb]; auto. destruct (Z.ltb_spec i (hi - lo)); cbn [andb option_map]; auto.
    destruct (@zget_in_range _ ch (lo + i)) as [v V]; [lia|]. rewrite V. reflexivity. }
  rewrite <- (flat_map_map' (fun t => zget ch t) (fun w => match w with Some (Some v) => [v] | _ => [] end)). rewrite <- S, flat_map_map'. reflexivity.
Qed.

(** C121.  Late enough, or for outputs that are short enough, the summary of an output is the mean of the known values of all
    its channels at the last 3000 times before timeIdx. *)
Theorem C121_mean_partial outputs t : 0 <= t -> (forall name chs ch, In (name, chs) outputs -> In ch chs -> 3000 <= t \/ t + zlen ch <= 3000) ->
  map fst (mean_near_time_idx outputs t) = map fst outputs /\
  forall k name chs, outputs.[k] = Some (name, chs) -> exists m, (mean_near_time_idx outputs t).[k] = Some (name, m) /\
    is_mean m (concat (map (fun ch => values_at ch (Z.max 0 (t - 3000)) t) chs)).
Proof.
  intros Ht H. unfold mean_near_time_idx. split; [rewrite map_map; reflexivity|]. intros k name chs G. eexists. split; [rewrite zget_map, G; reflexivity|]. cbn [snd].
  replace (concat _) with (known (map (fun ch => pyslice ch (t - 3000) t) chs)); [apply np_mean_is|].
  assert (D : forall ch, In ch chs -> 3000 <= t \/ t + zlen ch <= 3000) by (intros ch I; eapply H; eauto; eapply zget_In; eauto).
  clear G H. induction chs as [|ch chs IH]; [reflexivity|]. cbn [map concat]. rewrite known_cons. f_equal; [|apply IH; intros c I; apply D; right; auto].
  specialize (D ch (or_introl eq_refl)). apply slice_values; [lia|]. pose proof (zlen_nonneg ch). lia.
Qed.
(** For earlier times the slice begins at a negative index, which counts from the end: no value of an output with 3000 samples
    or more is used, and the summary is NaN although there are values. *)
Theorem C121_early_refuted name chs t : 0 <= t < 3000 -> (forall ch, In ch chs -> 3000 <= zlen ch) -> mean_near_time_idx [(name, chs)] t = [(name, None)].
Proof.
  intros Ht H. unfold mean_near_time_idx. cbn [map fst snd]. do 3 f_equal. replace (known _) with (@nil R); [reflexivity|]. symmetry.
  induction chs as [|ch chs IH]; [reflexivity|]. cbn [map]. rewrite known_cons, IH by (intros c I; apply H; right; auto). rewrite app_nil_r, known_one.
  specialize (H ch (or_introl eq_refl)). unfold pyslice, norm_idx. replace (t - 3000 <? 0) with true by lia. replace (t <? 0) with false by lia. replace (Z.to_nat (_ - _)) with 0%nat by lia. reflexivity.
Qed.

(* ------------------------------------------------------------------ C123 *)
(** the artist that is reached by following children *)
Fixpoint at_path {A} (a : artist A) (p : list Z) : option (artist A) :=
  match p with
  | [] => Some a
  | i :: p => match a with Artist _ _ children => match zget children i with Some c => at_path c p | None => None end end
  end.
Definition ncols_of {A} (a : artist A) : option A := match a with Artist n _ _ => n end.
Definition ncol_of {A} (a : artist A) : option A := match a with Artist _ n _ => n end.
(** C123.  Every artist below the given one that has _ncols gets the same value as _ncol, all others keep what they have, and
    the tree stays as it is. *)
Theorem C123_legends A (a : artist A) p :
  match at_path a p with
  | None => at_path (fix_ncols a) p = None
  | Some b => exists b', at_path (fix_ncols a) p = Some b' /\ ncols_of b' = ncols_of b /\
      (ncols_of b <> None -> ncol_of b' = ncols_of b) /\ (ncols_of b = None -> ncol_of b' = ncol_of b)
  end.
Proof.
  revert a. induction p as [|i p IH]; intros [n m cs].
  - cbn [at_path]. eexists. split; [reflexivity|]. cbn [fix_ncols ncols_of ncol_of]. split; auto. split; destruct n; auto; congruence.
  - cbn [at_path fix_ncols]. rewrite zget_map. destruct (zget cs i) as [c|]; cbn [option_map]; [apply IH|reflexivity].
Qed.

(* ------------------------------------------------------------------ C124 *)
(** C124.  Every position is drawn exactly once, in the group whose label is its z rounded to four decimals. *)
Theorem C124_groups u pos : 0 < u ->
  StronglySorted Z.lt (map fst (plot_3d_in_2d u pos)) /\
  Permutation (concat (map snd (plot_3d_in_2d u pos))) (map fst pos) /\
  (forall z g, In (z, g) (plot_3d_in_2d u pos) -> g <> []) /\
  forall z g p, In (z, g) (plot_3d_in_2d u pos) -> (In p g <-> exists h, In (p, h) pos /\ nearest u z h).
Proof.
  intros Hu. assert (F : map fst (plot_3d_in_2d u pos) = np_unique (map (fun p => np_round u (snd p)) pos)) by (unfold plot_3d_in_2d; rewrite map_map; cbn [fst]; apply map_id).
  split; [rewrite F; apply np_unique_sorted|].
  assert (M : forall z g p, In (z, g) (plot_3d_in_2d u pos) -> (In p g <-> exists h, In (p, h) pos /\ nearest u z h)).
  { intros z g p I. unfold plot_3d_in_2d in I. apply in_map_iff in I as (z' & E & _). injection E as -> <-. rewrite in_map_iff. split.
    - intros ((p' & h) & <- & I). apply filter_In in I as [I E]. apply Z.eqb_eq in E. cbn [snd] in E. exists h. split; [exact I|]. rewrite <- E. apply np_round_nearest; auto.
    - intros (h & I & N). exists (p, h). split; [reflexivity|]. apply filter_In. split; [exact I|]. cbn [snd]. apply Z.eqb_eq. apply round_eq; auto. }
  split; [|split; [|exact M]].
  - unfold plot_3d_in_2d. rewrite map_map. cbn [snd]. set (r := fun p : Z * Z * Z => np_round u (snd p)).
    assert (S : forall zs, NoDup zs -> (forall p, In p pos -> In (r p) zs) -> Permutation (concat (map (fun z => map fst (filter (fun p => r p =? z) pos)) zs)) (map fst pos)).
    { intros zs N. rewrite <- (map_map (fun z => filter (fun p => r p =? z) pos) (map fst)), <- concat_map. intros C. apply Permutation_map. clear F M. revert C. generalize pos as ps. induction ps as [|p ps IH]; intros C.
      - cbn [filter]. clear N C. induction zs; cbn; auto.
      - assert (I : In (r p) zs) by (apply C; left; reflexivity). apply in_split in I as (z1 & z2 & ->). assert (K : forall q, In q ps -> In (r q) (z1 ++ r p :: z2)) by (intros q Q; apply C; right; exact Q). specialize (IH K).
        assert (O : forall l, ~ In (r p) l -> map (fun z => filter (fun q => r q =? z) (p :: ps)) l = map (fun z => filter (fun q => r q =? z) ps) l).
        { intros l Nl. apply map_ext_in. intros z Hz. cbn [filter]. destruct (Z.eqb_spec (r p) z) as [<-|]; [contradiction|reflexivity]. }
        pose proof (NoDup_remove_2 _ _ _ N) as N2. rewrite map_app, concat_app in IH |- *. cbn [map concat] in IH |- *. rewrite !O by (intros X; apply N2; apply in_app_iff; auto). cbn [filter]. rewrite Z.eqb_refl. cbn [app].
        apply Permutation_sym, Permutation_cons_app, Permutation_sym. exact IH. }
    apply S.
    + pose proof (np_unique_sorted (map r pos)) as SS. revert SS. generalize (np_unique (map r pos)). intros zl SS. clear - SS. induction SS as [|x l S IH F]; constructor; auto. rewrite Forall_forall in F. intros I. specialize (F _ I). lia.
    + intros p I. apply In_np_unique, in_map_iff. exists p. auto.
  - intros z g I E. subst g. unfold plot_3d_in_2d in I. apply in_map_iff in I as (z' & E & I). injection E as -> E. apply In_np_unique, in_map_iff in I as (p & R & I).
    assert (J : In p (filter (fun p0 => np_round u (snd p0) =? z) pos)) by (apply filter_In; split; [exact I|apply Z.eqb_eq; exact R]). apply map_eq_nil in E. rewrite E in J. exact J.
Qed.
(** d is the largest difference between two numbers of l *)
Definition is_span (l : list Z) (d : Z) : Prop := (exists a b, In a l /\ In b l /\ d = a - b) /\ forall a b, In a l -> In b l -> a - b <= d.
Lemma zmax_spec l m : zmax l = Ok m -> In m l /\ forall x, In x l -> x <= m.
Proof.
  destruct l as [|x l]; [discriminate|]. cbn [zmax]. intros E. injection E as <-. induction l as [|y l [I L]]; cbn [fold_right].
  - split; [left; reflexivity|]. intros z [<-|[]]. lia.
  - split.
    + destruct (Z.max_spec y (fold_right Z.max x l)) as [[_ ->]|[_ ->]]; [|right; left; reflexivity]. destruct I as [I|I]; [left; exact I|right; right; exact I].
    + intros z [<-|[<-|J]]; [specialize (L x (or_introl eq_refl)); lia|lia|specialize (L z (or_intror J)); lia].
Qed.
Lemma zmin_spec l m : zmin l = Ok m -> In m l /\ forall x, In x l -> m <= x.
Proof.
  destruct l as [|x l]; [discriminate|]. cbn [zmin]. intros E. injection E as <-. induction l as [|y l [I L]]; cbn [fold_right].
  - split; [left; reflexivity|]. intros z [<-|[]]. lia.
  - split.
    + destruct (Z.min_spec y (fold_right Z.min x l)) as [[_ ->]|[_ ->]]; [right; left; reflexivity|]. destruct I as [I|I]; [left; exact I|right; right; exact I].
    + intros z [<-|[<-|J]]; [specialize (L x (or_introl eq_refl)); lia|lia|specialize (L z (or_intror J)); lia].
Qed.
Lemma span_of l a b : zmax l = Ok a -> zmin l = Ok b -> is_span l (a - b).
Proof.
  intros A B. apply zmax_spec in A as [IA LA]. apply zmin_spec in B as [IB LB]. split; [exists a, b; auto|]. intros x y X Y. specialize (LA x X). specialize (LB y Y). lia.
Qed.
(** C124.  size_of_2d_plot gives the extent of all positions along x and y. *)
Theorem C124_size arrays : (exists a, In a arrays /\ a <> []) -> exists w h, size_of_2d_plot arrays = Ok (w, h) /\
  is_span (map fst (concat arrays)) w /\ is_span (map snd (concat arrays)) h.
Proof.
  intros (a & I & N). unfold size_of_2d_plot. cbv zeta. assert (concat arrays <> []) as C. { intros C. destruct a as [|p a]; [congruence|]. assert (J : In p (concat arrays)) by (apply in_concat; exists (p :: a); split; [auto|left; auto]). rewrite C in J. exact J. }
  destruct (concat arrays) as [|p l]; [congruence|]. clear C I N. cbn [map].
  assert (T : forall x l, exists m, zmax (x :: l) = Ok m) by (intros; eexists; reflexivity). assert (T' : forall x l, exists m, zmin (x :: l) = Ok m) by (intros; eexists; reflexivity).
  destruct (T (fst p) (map fst l)) as [x1 X1]. destruct (T (snd p) (map snd l)) as [y1 Y1]. destruct (T' (fst p) (map fst l)) as [x0 X0]. destruct (T' (snd p) (map snd l)) as [y0 Y0].
  rewrite X1, Y1, X0, Y0. cbn [bind]. exists (x1 - x0), (y1 - y0). split; [reflexivity|]. split; apply span_of; assumption.
Qed.
Theorem C124_empty arrays : (forall a, In a arrays -> a = []) -> size_of_2d_plot arrays = Err ValueError.
Proof. intros H. unfold size_of_2d_plot. replace (concat arrays) with (@nil (Z * Z)); [reflexivity|]. symmetry. induction arrays as [|a l IH]; auto. cbn [concat]. rewrite (H a) by (left; auto). apply IH. intros b I. apply H. right. auto. Qed.

(* ------------------------------------------------------------------ C122 *)
(** The size of a figure with n columns and k rows of drawings of positions that extend over w and h *)
Definition figure_size (n k w h : Z) : R * R :=
  (IZR n * (IZR w / IZR (Z.max w h)) * 5, IZR k * (IZR h / IZR (Z.max w h)) * 5)%R.
(** an image with this title shows the values [s], with colours that range over exactly these values, at the positions [pos] *)
Definition shows (im : sf_image) (title : string) (s : list (list R)) (pos : list (Z * Z)) : Prop :=
  m_title im = title /\ m_values im = s /\ smallest (concat s) (m_vmin im) /\ largest (concat s) (m_vmax im) /\
  forall p, In p (concat (m_pos im)) <-> In p pos.

Lemma span_unique l d d' : is_span l d -> is_span l d' -> d = d'.
Proof. intros [(a & b & A & B & ->) L] [(a' & b' & A' & B' & ->) L']. specialize (L a' b' A' B'). specialize (L' a b A B). lia. Qed.
Lemma span_same l l' d : (forall x, In x l <-> In x l') -> is_span l d -> is_span l' d.
Proof. intros H [(a & b & A & B & ->) L]. split; [exists a, b; rewrite <- !H; auto|]. intros x y X Y. apply L; apply H; auto. Qed.
Lemma size_is P w h : is_span (map fst (concat P)) w -> is_span (map snd (concat P)) h -> size_of_2d_plot [concat P] = Ok (w, h).
Proof.
  intros W H. destruct (C124_size [concat P]) as (w' & h' & E & W' & H').
  { exists (concat P). split; [left; reflexivity|]. destruct W as [(a & b & A & _) _]. intros C. rewrite C in A. exact A. }
  rewrite E. cbn [concat] in W', H'. rewrite app_nil_r in W', H'. rewrite (span_unique _ _ _ W W'), (span_unique _ _ _ H H'). reflexivity.
Qed.
Lemma at_idx_ok {A} (l : list A) i x : zget l i = Some x -> at_idx l i = Ok x.
Proof. intros E. unfold at_idx. rewrite E. reflexivity. Qed.
Lemma show_ok P pos sig k w h algos rows : (forall p, In p (concat P) <-> In p pos) -> is_span (map fst pos) w -> is_span (map snd pos) h -> 0 < w \/ 0 < h ->
  sig <> [] -> (forall r, In r sig -> zlen r = k) -> (forall r s, In r sig -> In s r -> concat s <> []) -> ~ (k = 1 /\ 1 < zlen sig) -> zlen sig <= zlen algos -> k <= zlen rows ->
  exists images, show_fields P sig algos rows = Ok (figure_size k (zlen sig) w h, images) /\ zlen images = zlen sig /\ (forall r, In r images -> zlen r = k) /\
    forall i j r s, sig.[i] = Some r -> r.[j] = Some s -> exists ims im a b, images.[i] = Some ims /\ ims.[j] = Some im /\ algos.[i] = Some a /\ rows.[j] = Some b /\ shows im (a ++ ", " ++ b) s pos.
Proof.
  intros HP W H WH N K NE SQ LA LR. unfold show_fields. cbv zeta.
  assert (EW : forall f : Z * Z -> Z, forall x, In x (map f pos) <-> In x (map f (concat P))) by (intros f x; rewrite !in_map_iff; split; intros (p & E & I); exists p; split; auto; apply HP; auto).
  rewrite (size_is P w h) by (eapply span_same; [apply EW|]; eauto). cbn [bind fst snd].
  assert (0 <= w) as W0 by (destruct W as [(a & _ & A & _) L]; specialize (L a a A A); lia). assert (0 <= h) as H0 by (destruct H as [(a & _ & A & _) L]; specialize (L a a A A); lia).
  replace (Z.max w h =? 0) with false by lia.
  assert (E : match sig with [] => 0 | s :: _ => zlen s end = k) by (destruct sig; [congruence|apply K; left; reflexivity]). rewrite E.
  replace ((k =? 1) && (1 <? zlen sig))%bool with false by lia.
  match goal with |- context [mapM ?F (zrange 0 (zlen sig))] => set (f := F) end.
  assert (C : forall i j r s, sig.[i] = Some r -> r.[j] = Some s -> exists im a b, algos.[i] = Some a /\ rows.[j] = Some b /\ shows im (a ++ ", " ++ b) s pos /\
    (row <- at_idx sig i ;; s <- at_idx row j ;; algo <- at_idx algos i ;; label <- at_idx rows j ;; vmin <- np_min (concat s) ;; vmax <- np_max (concat s) ;;
      Ok (mkImage (algo ++ ", " ++ label)%string P s vmin vmax)) = Ok im).
  { intros i j r s R S. pose proof (zget_some_range _ _ R). pose proof (zget_some_range _ _ S). specialize (K r (zget_In _ _ R)). specialize (NE r s (zget_In _ _ R) (zget_In _ _ S)).
    destruct (@zget_in_range _ algos i) as [a A]; [lia|]. destruct (@zget_in_range _ rows j) as [b B]; [lia|]. destruct (np_min_ok NE) as (m & M1 & M2). destruct (np_max_ok NE) as (m' & M3 & M4).
    exists (mkImage (a ++ ", " ++ b)%string P s m m'), a, b. split; [exact A|]. split; [exact B|]. split; [unfold shows; cbn [m_title m_values m_vmin m_vmax m_pos]; auto|].
    rewrite (at_idx_ok _ _ _ R). cbn [bind]. rewrite (at_idx_ok _ _ _ S). cbn [bind]. rewrite (at_idx_ok _ _ _ A). cbn [bind]. rewrite (at_idx_ok _ _ _ B). cbn [bind]. rewrite M1. cbn [bind]. rewrite M3. reflexivity. }
  destruct (@mapM_total _ _ f (zrange 0 (zlen sig))) as [images EI].
  { intros i I. apply In_zrange in I. destruct (@zget_in_range _ sig i) as [r R]; [lia|]. unfold f. apply mapM_total. intros j J. apply In_zrange in J. pose proof (K r (zget_In _ _ R)). destruct (@zget_in_range _ r j) as [s S]; [lia|].
    destruct (C i j r s R S) as (im & _ & _ & _ & _ & _ & Q). exists im. exact Q. }
  rewrite EI. cbn [bind]. exists images. split; [reflexivity|]. split; [rewrite (mapM_zlen _ _ EI), zlen_zrange; pose proof (zlen_nonneg sig); lia|].
  assert (B : forall i ims, images.[i] = Some ims -> 0 <= i < zlen sig /\ f i = Ok ims).
  { intros i ims G. destruct (mapM_zget_back _ _ _ EI G) as (i' & I & Q). rewrite zget_zrange in I. destruct (_ && _)%bool eqn:D in I; [|discriminate]. injection I as <-. split; [lia|]. exact Q. }
  split.
  - intros r I. apply In_zget in I as (i & _ & G). destruct (B _ _ G) as [R Q]. unfold f in Q. rewrite (mapM_zlen _ _ Q), zlen_zrange. destruct sig as [|r0 sig]; [congruence|]. pose proof (K r0 (or_introl eq_refl)). pose proof (zlen_nonneg r0). lia.
  - intros i j r s R S. pose proof (zget_some_range _ _ R) as RR. destruct (C i j r s R S) as (im & a & b & A1 & A2 & A3 & A4).
    assert (I : (zrange 0 (zlen sig)).[i] = Some i) by (rewrite zget_zrange; replace (_ && _)%bool with true by lia; f_equal; lia). destruct (mapM_zget _ _ _ EI I) as (ims & G & Q). unfold f in Q.
    pose proof (zget_some_range _ _ S) as SS. pose proof (K r (zget_In _ _ R)).
    assert (J : (zrange 0 k).[j] = Some j) by (rewrite zget_zrange; replace (_ && _)%bool with true by lia; f_equal; lia). destruct (mapM_zget _ _ _ Q J) as (im' & G' & Q'). cbv beta in Q'. rewrite A4 in Q'. injection Q' as <-.
    exists ims, im, a, b. auto.
Qed.
Section C122.
Variable u : Z.
Hypothesis u_pos : 0 < u.
Variable argsort : list Z -> list Z.
Variable close : Z -> Z -> bool.
Variables (pos : list (Z * Z)) (zs : option (list Z)) (xs ys : list Z).
Hypothesis grid : rectangular u pos xs ys.
Hypothesis argsort_sorts : sorts argsort.
Hypothesis plane : one_plane close zs.

(** C122.  With a list of signals, as documented, nothing is drawn. *)
Theorem C122_list algos rows : compare_soundfields u argsort close pos zs SigList algos rows = Err AttributeError.
Proof. unfold compare_soundfields. destruct (@C84_sorted_partial u u_pos argsort close _ pos zs pos xs ys grid argsort_sorts plane eq_refl) as (P & V & E & _). rewrite E. reflexivity. Qed.
(** Nor with an array of shape (algorithms, axes, positions), if there are fewer algorithms than positions. *)
Theorem C122_array sig algos rows : zlen sig < zlen pos -> compare_soundfields u argsort close pos zs (Sig3 sig) algos rows = Err IndexError.
Proof. intros H. unfold compare_soundfields. rewrite (@C84_too_few u u_pos argsort close _ pos zs sig xs ys grid argsort_sorts plane H). reflexivity. Qed.

Lemma sorted_positions P V (sig : list V) W : sort_for_imshow u argsort close pos zs sig = Ok (P, W) -> zlen sig = zlen pos -> forall p, In p (concat P) <-> In p pos.
Proof.
  intros E L p. destruct (@C84_sorted_partial u u_pos argsort close _ pos zs sig xs ys grid argsort_sorts plane L) as (P' & V' & E' & LP & _ & RP & _ & C). rewrite E in E'. injection E' as <- <-.
  rewrite in_concat. split.
  - intros (row & I & J). pose proof (RP _ I) as LR. apply In_zget in I as (i & R1 & I). apply In_zget in J as (j & R2 & J). destruct (filled grid (i := i) (j := j)) as [n N]; [lia|lia|].
    destruct (C n i j N) as (q & v & rp & rv & A1 & _ & A3 & A4 & _). rewrite I in A3. injection A3 as <-. rewrite J in A4. injection A4 as <-. eapply zget_In; eauto.
  - intros I. apply In_zget in I as (n & _ & I). destruct (covered grid _ I) as (i & j & N). destruct (C n i j N) as (q & v & rp & rv & A1 & _ & A3 & A4 & _). rewrite I in A1. injection A1 as <-.
    exists rp. split; eapply zget_In; eauto.
Qed.
Variables (w h : Z).
Hypothesis width : is_span (map fst pos) w.
Hypothesis height : is_span (map snd pos) h.
Hypothesis extended : 0 < w \/ 0 < h.
(** If all positions are the same point, the size of the figure is not a number, which is an error. *)
Theorem C122_point sig algos rows : is_span (map fst pos) 0 -> is_span (map snd pos) 0 -> zlen sig = zlen pos -> compare_soundfields u argsort close pos zs (Sig2 sig) algos rows = Err ValueError.
Proof.
  intros W H L. unfold compare_soundfields. destruct (@C84_sorted_partial u u_pos argsort close _ pos zs sig xs ys grid argsort_sorts plane L) as (P & V & E & _). rewrite E. cbn [bind fst snd].
  pose proof (sorted_positions _ _ _ _ E L) as HP. unfold show_fields. cbv zeta.
  assert (EW : forall f : Z * Z -> Z, forall x, In x (map f pos) <-> In x (map f (concat P))) by (intros f x; rewrite !in_map_iff; split; intros (p & Ep & I); exists p; split; auto; apply HP; auto).
  rewrite (size_is P 0 0) by (eapply span_same; [apply EW|]; eauto). reflexivity.
Qed.
(** C122.  With an array that holds a list of values for each position, there is one image for each row of the grid, from the
    one with the largest y on: its rows are the lists of values at the positions in that row. *)
Theorem C122_rows sig algos rows : zlen sig = zlen pos -> (forall s, In s sig -> s <> []) -> 1 <= zlen algos -> zlen ys <= zlen rows ->
  exists images, compare_soundfields u argsort close pos zs (Sig2 sig) algos rows = Ok (figure_size (zlen ys) 1 w h, [images]) /\ zlen images = zlen ys /\
    forall j, 0 <= j < zlen ys -> exists im a b s, images.[j] = Some im /\ algos.[0] = Some a /\ rows.[j] = Some b /\ shows im (a ++ ", " ++ b) s pos /\ zlen s = zlen xs /\
      forall n c, in_cell u pos xs ys n (zlen ys - 1 - j) c -> exists v, sig.[n] = Some v /\ s.[c] = Some v.
Proof.
  intros HL HN HA HR. unfold compare_soundfields. destruct (@C84_sorted_partial u u_pos argsort close _ pos zs sig xs ys grid argsort_sorts plane HL) as (P & V & E & LP & LV & RP & RV & C). rewrite E. cbn [bind fst snd].
  pose proof (sorted_positions _ _ _ _ E HL) as HP.
  destruct (show_ok P pos [V] (zlen ys) w h algos rows) as (images & EI & LI & RI & CI); auto.
  - discriminate.
  - intros r [<-|[]]. exact LV.
  - intros r s [<-|[]] I Q. pose proof (RV _ I) as LS. apply In_zget in I as (j & Rj & G). assert (X : 0 < zlen xs) by (destruct (not_empty grid) as [X _]; destruct xs; [congruence|rewrite zlen_cons; pose proof (zlen_nonneg l); lia]).
    destruct (filled grid (i := zlen ys - 1 - j) (j := 0)) as [n N]; [lia|lia|]. destruct (C n _ _ N) as (p & v & rp & rv & _ & A2 & _ & _ & A5 & A6). replace (zlen ys - 1 - (zlen ys - 1 - j)) with j in A5 by lia. rewrite G in A5. injection A5 as <-.
    apply (HN v (zget_In _ _ A2)). destruct v as [|x v]; [reflexivity|]. assert (J : In x (concat s)) by (apply in_concat; exists (x :: v); split; [eapply zget_In; eauto|left; auto]). rewrite Q in J. destruct J.
  - cbn. lia.
  - rewrite EI. change (zlen [V]) with 1 in LI. destruct images as [|ims [|? l]]; [discriminate LI| |rewrite !zlen_cons in LI; pose proof (zlen_nonneg l); lia]. exists ims. split; [reflexivity|]. split; [apply RI; left; reflexivity|].
    intros j Hj. destruct (@zget_in_range _ V j) as [s S]; [lia|]. destruct (CI 0 j V s eq_refl S) as (ims' & im & a & b & A1 & A2 & A3 & A4 & A5). cbn in A1. injection A1 as <-.
    exists im, a, b, s. split; [exact A2|]. split; [exact A3|]. split; [exact A4|]. split; [exact A5|]. split; [apply RV; eapply zget_In; eauto|].
    intros n c N. destruct (C n _ _ N) as (p & v & rp & rv & _ & B2 & _ & _ & B5 & B6). replace (zlen ys - 1 - (zlen ys - 1 - j)) with j in B5 by lia. rewrite S in B5. injection B5 as <-. eauto.
Qed.
(** With an array of shape (positions, a, b), there is one image for each position, arranged as the positions are. *)
Theorem C122_cells sig algos rows : zlen sig = zlen pos -> (forall s, In s sig -> concat s <> []) -> zlen ys <= zlen algos -> zlen xs <= zlen rows -> ~ (zlen xs = 1 /\ 1 < zlen ys) ->
  exists images, compare_soundfields u argsort close pos zs (Sig3 sig) algos rows = Ok (figure_size (zlen xs) (zlen ys) w h, images) /\ zlen images = zlen ys /\ (forall r, In r images -> zlen r = zlen xs) /\
    forall n i j, in_cell u pos xs ys n (zlen ys - 1 - i) j -> exists ims im a b s, images.[i] = Some ims /\ ims.[j] = Some im /\ algos.[i] = Some a /\ rows.[j] = Some b /\
      sig.[n] = Some s /\ shows im (a ++ ", " ++ b) s pos.
Proof.
  intros HL HN HA HR SQ. unfold compare_soundfields. destruct (@C84_sorted_partial u u_pos argsort close _ pos zs sig xs ys grid argsort_sorts plane HL) as (P & V & E & LP & LV & RP & RV & C). rewrite E. cbn [bind fst snd].
  pose proof (sorted_positions _ _ _ _ E HL) as HP.
  destruct (show_ok P pos V (zlen xs) w h algos rows) as (images & EI & LI & RI & CI); auto.
  - destruct (not_empty grid) as [_ Y]. intros Q. rewrite Q in LV. destruct ys as [|y l]; [congruence|]. rewrite zlen_cons in LV. pose proof (zlen_nonneg l). change (zlen (@nil (list (list (list R))))) with 0 in LV. lia.
  - intros r s I J. pose proof (RV _ I) as LS. apply In_zget in I as (i & Ri & G). apply In_zget in J as (j & Rj & J).
    destruct (filled grid (i := zlen ys - 1 - i) (j := j)) as [n N]; [lia|lia|]. destruct (C n _ _ N) as (p & v & rp & rv & _ & A2 & _ & _ & A5 & A6). replace (zlen ys - 1 - (zlen ys - 1 - i)) with i in A5 by lia. rewrite G in A5. injection A5 as <-. rewrite J in A6. injection A6 as <-.
    apply HN. eapply zget_In; eauto.
  - lia.
  - lia.
  - rewrite EI, LV. exists images. split; [reflexivity|]. split; [lia|]. split; [exact RI|]. intros n i j N. destruct (C n _ _ N) as (p & v & rp & rv & _ & A2 & _ & _ & A5 & A6). replace (zlen ys - 1 - (zlen ys - 1 - i)) with i in A5 by lia.
    destruct (CI i j rv v A5 A6) as (ims & im & a & b & B). exists ims, im, a, b, v. intuition.
Qed.
(** Several rows of one position each cannot be shown in this way. *)
Theorem C122_one_column sig algos rows : zlen sig = zlen pos -> (forall s, In s sig -> concat s <> []) -> zlen xs = 1 -> 1 < zlen ys ->
  compare_soundfields u argsort close pos zs (Sig3 sig) algos rows = Err IndexError.
Proof.
  intros HL HN X1 Y1. unfold compare_soundfields. destruct (@C84_sorted_partial u u_pos argsort close _ pos zs sig xs ys grid argsort_sorts plane HL) as (P & V & E & LP & LV & RP & RV & C). rewrite E. cbn [bind fst snd].
  pose proof (sorted_positions _ _ _ _ E HL) as HP. unfold show_fields. cbv zeta.
  assert (EW : forall f : Z * Z -> Z, forall x, In x (map f pos) <-> In x (map f (concat P))) by (intros f x; rewrite !in_map_iff; split; intros (p & Ep & I); exists p; split; auto; apply HP; auto).
  rewrite (size_is P w h) by (eapply span_same; [apply EW|]; eauto). cbn [bind fst snd].
  assert (0 <= w) as W0 by (destruct width as [(a & _ & A & _) L]; specialize (L a a A A); lia). assert (0 <= h) as H0 by (destruct height as [(a & _ & A & _) L]; specialize (L a a A A); lia).
  replace (Z.max w h =? 0) with false by lia.
  destruct V as [|r V]; [change (zlen (@nil (list (list (list R))))) with 0 in LV; lia|]. rewrite (RV r (or_introl eq_refl)), X1, LV. cbn [Z.eqb Pos.eqb andb]. replace (1 <? zlen ys) with true by lia.
  rewrite (@zrange_cons 0 1) by lia. rewrite (@zrange_empty (0 + 1) 1) by lia. cbn [mapM]. rewrite (@zrange_cons 0 (zlen ys)) by lia. rewrite (@zrange_cons (0 + 1) (zlen ys)) by lia. cbn [mapM].
  pose proof (RV r (or_introl eq_refl)) as LR. rewrite (at_idx_ok (r :: V) 0 r eq_refl). cbn [bind].
  destruct (@zget_in_range _ r 0) as [s S]; [lia|]. rewrite (at_idx_ok _ _ _ S). cbn [bind].
  assert (NS : concat s <> []).
  { destruct (filled grid (i := zlen ys - 1) (j := 0)) as [n N]; [lia|lia|]. destruct (C n _ _ N) as (p & v & rp & rv & _ & A2 & _ & _ & A5 & A6). replace (zlen ys - 1 - (zlen ys - 1)) with 0 in A5 by lia. cbn in A5. injection A5 as <-. rewrite S in A6. injection A6 as <-. apply HN. eapply zget_In; eauto. }
  unfold at_idx at 1. destruct (zget algos 0); cbn [bind]; [|reflexivity]. unfold at_idx at 1. destruct (zget rows 0); cbn [bind]; [|reflexivity].
  destruct (np_min_ok NS) as (m & M & _). destruct (np_max_ok NS) as (m' & M' & _). rewrite M. cbn [bind]. rewrite M'. cbn [bind]. unfold at_idx at 1. rewrite (zget_out r) by lia. reflexivity.
Qed.
End C122.

(* ------------------------------------------------------------------ Examples *)
Example C121_mean_partial_meets : (forall name chs ch, In (name, chs) [("a", [[Some 5; Some 1; None; Some 3]; [None; None]])]%R -> In ch chs -> 3000 <= 3001 \/ 3001 + zlen ch <= 3000) /\
  concat (map (fun ch => values_at ch (Z.max 0 (3001 - 3000)) 3001) [[Some 5; Some 1; None; Some 3]; [None; None]])%R = [1; 3]%R /\ is_mean (Some 2%R) [1; 3]%R /\
  (forall name chs ch, In (name, chs) [("a", [[Some 5; Some 1; None; Some 3]])]%R -> In ch chs -> 3000 <= 2 \/ 2 + zlen ch <= 3000).
Proof.
  split; [intros; lia|]. split; [vm_compute; reflexivity|]. split; [split; [discriminate|change (zlen [1%R; 3%R]) with 2; cbn [fold_right]; lra]|].
  intros name chs ch [E|[]] I. injection E as <- <-. destruct I as [<-|[]]. right. vm_compute. discriminate.
Qed.
Example C121_early_refuted_meets : 0 <= 1000 < 3000 /\ (forall ch, In ch [zrep 4000 (Some 7%R)] -> 3000 <= zlen ch) /\ In 7%R (values_at (zrep 4000 (Some 7%R)) (Z.max 0 (1000 - 3000)) 1000).
Proof.
  split; [lia|]. split; [intros ch [<-|[]]; rewrite zlen_zrep; lia|]. unfold values_at. apply in_flat_map. exists 5. split; [apply In_zrange; lia|]. rewrite zget_zrep. left. reflexivity.
Qed.
Example C123_legends_meets : let a := Artist (Some 2) None [Artist None (Some 5) []; Artist (Some 3) (Some 1) [Artist (Some 4) None []]] in
  at_path a [1; 0] = Some (Artist (Some 4) None []) /\ fix_ncols a = Artist (Some 2) (Some 2) [Artist None (Some 5) []; Artist (Some 3) (Some 3) [Artist (Some 4) (Some 4) []]].
Proof. split; reflexivity. Qed.
Example C124_groups_meets : plot_3d_in_2d 10 [(1, 2, 103); (3, 4, 0); (5, 6, 98); (7, 8, -5)] = [(0, [(3, 4); (7, 8)]); (100, [(1, 2); (5, 6)])].
Proof. vm_compute. reflexivity. Qed.
Example C124_size_meets : (exists a, In a [[]; [(1, 2); (5, -3)]; [(2, 9)]] /\ a <> []) /\ size_of_2d_plot [[]; [(1, 2); (5, -3)]; [(2, 9)]] = Ok (4, 12).
Proof. split; [exists [(2, 9)]; split; [cbn; auto|discriminate]|reflexivity]. Qed.
Example C124_empty_meets : forall a : list (Z * Z), In a [[]; []] -> a = [].
Proof. intros a [<-|[<-|[]]]; reflexivity. Qed.

Lemma span_is l a b d : zmax l = Ok a -> zmin l = Ok b -> d = a - b -> is_span l d.
Proof. intros A B ->. apply span_of; auto. Qed.
Definition four : list (Z * Z) := [(101, -1); (0, 2); (1, 100); (99, 101)].
Lemma four_spans : is_span (map fst four) 101 /\ is_span (map snd four) 102.
Proof. split; (eapply span_is; reflexivity). Qed.
Example C122_example : rectangular 10 four [0; 100] [0; 100] /\ sorts argsort_simple /\ one_plane Z.eqb (Some [7; 7; 7; 7]) /\ is_span (map fst four) 101 /\ is_span (map snd four) 102 /\ (0 < 101 \/ 0 < 102) /\
  zlen [[1; 2]; [3; 4]; [5; 6]; [7; 8]]%R = zlen four /\ (forall s, In s [[1; 2]; [3; 4]; [5; 6]; [7; 8]]%R -> s <> []) /\ 1 <= zlen ["algorithm"] /\ zlen [0; 100] <= zlen ["low"; "high"] /\
  exists size a b, compare_soundfields 10 argsort_simple Z.eqb four (Some [7; 7; 7; 7]) (Sig2 [[1; 2]; [3; 4]; [5; 6]; [7; 8]]%R) ["algorithm"] ["low"; "high"] = Ok (size, [[a; b]]) /\
    m_title a = "algorithm, low" /\ m_values a = [[5; 6]; [7; 8]]%R /\ m_values b = [[3; 4]; [1; 2]]%R.
Proof.
  destruct C84_sorted_partial_meets as (G & S & P & _ & _). destruct four_spans as [W H]. fold four in G. split; [exact G|]. split; [exact S|]. split; [exact P|]. split; [exact W|]. split; [exact H|]. split; [lia|].
  split; [reflexivity|]. split; [intros s [<-|[<-|[<-|[<-|[]]]]]; discriminate|]. split; [vm_compute; discriminate|]. split; [vm_compute; discriminate|].
  destruct (C122_rows 10 ltac:(lia) argsort_simple Z.eqb four (Some [7; 7; 7; 7]) [0; 100] [0; 100] G S P 101 102 W H ltac:(lia) [[1; 2]; [3; 4]; [5; 6]; [7; 8]]%R ["algorithm"] ["low"; "high"]) as (ims & E & L & C);
    [reflexivity|intros s [<-|[<-|[<-|[<-|[]]]]]; discriminate|vm_compute; discriminate|vm_compute; discriminate|].
  change (zlen [0; 100]) with 2 in *. destruct ims as [|a [|b [|? ims]]]; try discriminate L; [|rewrite !zlen_cons in L; pose proof (zlen_nonneg ims); lia].
  eexists. exists a, b. split; [exact E|].
  assert (N : forall r p, (exists q, r = q * 10) -> 2 * Z.abs (p - r) < 10 -> nearest 10 r p) by (intros r p (q & ->) D; exists q; split; [auto|split; lia]).
  assert (N0 : exists q, 0 = q * 10) by (exists 0; auto). assert (N1 : exists q, 100 = q * 10) by (exists 10; auto).
  assert (Cell : in_cell 10 four [0; 100] [0; 100] 0 0 1 /\ in_cell 10 four [0; 100] [0; 100] 1 0 0 /\ in_cell 10 four [0; 100] [0; 100] 2 1 0 /\ in_cell 10 four [0; 100] [0; 100] 3 1 1).
  { repeat split; eexists; eexists; eexists; eexists; (split; [reflexivity|]); (split; [reflexivity|]); (split; [reflexivity|]); split; apply N; auto; lia. }
  destruct Cell as (C1 & C2 & C3 & C4).
  assert (V : forall im t s v0 v1, shows im t s four -> zlen s = 2 -> (exists v, Some v0 = Some v /\ s.[0] = Some v) -> (exists v, Some v1 = Some v /\ s.[1] = Some v) -> m_values im = [v0; v1]).
  { intros im t s v0 v1 (_ & -> & _) Ls (x & X & S0) (y & Y & S1). injection X as ->. injection Y as ->. apply zget_ext_range; [exact Ls|]. intros i Hi. assert (i = 0 \/ i = 1) as [->| ->] by lia; [exact S0|exact S1]. }
  destruct (C 0 ltac:(lia)) as (im & a1 & b1 & s & A1 & A2 & A3 & A4 & A5 & A6). destruct (C 1 ltac:(lia)) as (im' & a2 & b2 & s' & B1 & B2 & B3 & B4 & B5 & B6).
  cbn in A1, B1. injection A1 as <-. injection B1 as <-. cbn in A2, A3. injection A2 as <-. injection A3 as <-.
  split; [destruct A4 as [-> _]; reflexivity|]. split.
  - apply (V _ _ _ _ _ A4 A5); [exact (A6 2 0 C3)|exact (A6 3 1 C4)].
  - apply (V _ _ _ _ _ B4 B5); [exact (B6 1 0 C2)|exact (B6 0 1 C1)].
Qed.
Example C122_point_meets : rectangular 10 [(3, 8)] [0] [10] /\ is_span (map fst [(3, 8)]) 0 /\ is_span (map snd [(3, 8)]) 0 /\ zlen [[1; 2]]%R = zlen [(3, 8)].
Proof.
  assert (O : forall T j (x y : T), [x].[j] = Some y -> j = 0 /\ y = x) by (intros T j x y; rewrite zget_cons, zget_nil; destruct (Z.eqb_spec j 0); [intros E; injection E as <-; auto|discriminate]).
  split; [|split; [eapply span_is; reflexivity|split; [eapply span_is; reflexivity|reflexivity]]].
  assert (C : in_cell 10 [(3, 8)] [0] [10] 0 0 0).
  { exists 3, 8, 0, 10. split; [reflexivity|]. split; [reflexivity|]. split; [reflexivity|]. split; [exists 0|exists 1]; (split; [auto|split; lia]). }
  constructor.
  - intros j j' x x' L A B. apply O in A as [-> ->]. apply O in B as [-> ->]. lia.
  - intros j j' x x' L A B. apply O in A as [-> ->]. apply O in B as [-> ->]. lia.
  - split; discriminate.
  - intros n p G. apply O in G as [-> ->]. eauto.
  - intros i j Hi Hj. change (zlen [10]) with 1 in *. change (zlen [0]) with 1 in *. assert (i = 0) as -> by lia. assert (j = 0) as -> by lia. eauto.
  - intros n n' i j (px & py & x & y & A & _) (px' & py' & x' & y' & B & _). apply O in A as [-> _]. apply O in B as [-> _]. reflexivity.
Qed.
Example C122_array_meets : zlen [[[1%R]]; [[2%R]]; [[3%R]]] < zlen four.
Proof. reflexivity. Qed.
Example C122_cells_meets : zlen [[[1; 2]]; [[3]]; [[5]; [6]]; [[7]]]%R = zlen four /\ (forall s, In s [[[1; 2]]; [[3]]; [[5]; [6]]; [[7]]]%R -> concat s <> []) /\ zlen [0; 100] <= zlen ["a"; "b"] /\ ~ (zlen [0; 100] = 1 /\ 1 < zlen [0; 100]).
Proof. split; [reflexivity|]. split; [intros s [<-|[<-|[<-|[<-|[]]]]]; discriminate|]. split; [vm_compute; discriminate|]. intros [E _]. discriminate. Qed.
Example C122_one_column_meets : rectangular 10 [(0, 0); (1, 100)] [0] [0; 100] /\ is_span (map fst [(0, 0); (1, 100)]) 1 /\ is_span (map snd [(0, 0); (1, 100)]) 100 /\
  zlen [[[1%R]]; [[2%R]]] = zlen [(0, 0); (1, 100)] /\ (forall s, In s [[[1%R]]; [[2%R]]] -> concat s <> []) /\ zlen [0] = 1 /\ 1 < zlen [0; 100].
Proof.
  split; [|split; [eapply span_is; reflexivity|split; [eapply span_is; reflexivity|split; [reflexivity|split; [intros s [<-|[<-|[]]]; discriminate|split; reflexivity]]]]].
  assert (N : forall r p, (exists q, r = q * 10) -> 2 * Z.abs (p - r) < 10 -> nearest 10 r p) by (intros r p (q & ->) D; exists q; split; [auto|split; lia]).
  assert (N0 : exists q, 0 = q * 10) by (exists 0; auto). assert (N1 : exists q, 100 = q * 10) by (exists 10; auto).
  assert (C : in_cell 10 [(0, 0); (1, 100)] [0] [0; 100] 0 0 0 /\ in_cell 10 [(0, 0); (1, 100)] [0] [0; 100] 1 1 0).
  { repeat split; eexists; eexists; eexists; eexists; (split; [reflexivity|]); (split; [reflexivity|]); (split; [reflexivity|]); split; apply N; auto; lia. }
  destruct C as (C1 & C2). assert (O : forall j x, [0].[j] = Some x -> j = 0 /\ x = 0) by (intros j x; rewrite zget_cons, zget_nil; destruct (Z.eqb_spec j 0); [intros E; injection E as <-; auto|discriminate]). constructor.
  - intros j j' x x' L A B. apply O in A as [-> ->]. apply O in B as [-> ->]. lia.
  - intros j j' x x' L A B. apply get_cons2 in A as [[-> ->]|[-> ->]]; apply get_cons2 in B as [[-> ->]|[-> ->]]; lia.
  - split; discriminate.
  - intros n p G. pose proof (zget_some_range _ _ G) as R. change (zlen [(0, 0); (1, 100)]) with 2 in R. assert (n = 0 \/ n = 1) as [->| ->] by lia; eauto.
  - intros i j Hi Hj. change (zlen [0; 100]) with 2 in *. change (zlen [0]) with 1 in *. assert (i = 0 \/ i = 1) as [->| ->] by lia; assert (j = 0) as -> by lia; eauto.
  - intros n n' i j (px & py & x & y & E & X & Y & _ & NY) (px' & py' & x' & y' & E' & X' & Y' & _ & NY'). rewrite Y in Y'. injection Y' as <-. apply round_eq in NY; [|lia]. apply round_eq in NY'; [|lia].
    apply get_cons2 in E as [[-> E]|[-> E]]; apply get_cons2 in E' as [[-> E']|[-> E']]; injection E as -> ->; injection E' as -> ->; try reflexivity; vm_compute in NY, NY'; lia.
Qed.

Print Assumptions C121_mean_partial.
Print Assumptions C121_early_refuted.
Print Assumptions C122_list.
Print Assumptions C122_array.
Print Assumptions C122_point.
Print Assumptions C122_rows.
Print Assumptions C122_cells.
Print Assumptions C122_one_column.
Print Assumptions C123_legends.
Print Assumptions C124_groups.
Print Assumptions C124_size.
Print Assumptions C124_empty.
