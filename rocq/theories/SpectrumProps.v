(** C140: what figures of spectra show. *)
Require Import Verif.PyBase Verif.PyLemmas Verif.PlotModel Verif.ExportModel Verif.SpectrumModel.
Set Implicit Arguments.

(* ------------------------------------------------------------------ specification *)
Section Spec.
Context {V : Type}.
(** a curve with this label that has the value y of each index k *)
Definition shows (label : string) (values : list V) (l : line V) : Prop :=
  l_label l = label /\ zlen (l_x l) = zlen values /\ zlen (l_y l) = zlen values /\ forall k y, zget values k = Some y -> zget (l_x l) k = Some k /\ zget (l_y l) k = Some y.
End Spec.

(* ------------------------------------------------------------------ proofs *)
Section C140.
Context {V : Type}.
Notation output := (output V).
Lemma ax_vector name (v : list V) : exists l, ax_plot name (Vector v) = [l] /\ shows name v l.
Proof.
  eexists. split; [reflexivity|]. split; [reflexivity|]. cbn [l_x l_y]. pose proof (zlen_nonneg v). split; [rewrite zlen_zrange; lia|]. split; [reflexivity|]. intros k y H1. split; [|exact H1].
  pose proof (zget_some_range _ _ H1) as R. rewrite zget_zrange. replace ((0 <=? k) && (k <? zlen v - 0))%bool with true by lia. f_equal; try lia.
Qed.
(** C140.  If every diagnostic gives a vector, the figure has exactly one curve for each, in their order: its values over their indices, labelled with the name. *)
Theorem C140_vectors_partial (diags : list (string * list V)) : exists fig, spectrum_plot (map (fun d => (fst d, Ok (Vector (snd d)))) diags) = Ok fig /\
  Forall2 (fun d l => shows (fst d) (snd d) l) diags (sf_lines fig).
Proof.
  unfold spectrum_plot. set (step := fun lines d => _).
  assert (G : forall acc, exists new, foldM step acc (map (fun d : string * list V => (fst d, Ok (Vector (snd d)))) diags) = Ok (acc ++ new)%list /\ Forall2 (fun d l => shows (fst d) (snd d) l) diags new).
  { induction diags as [|[n v] r IH]; intros acc; [exists []; split; [cbn; rewrite app_nil_r; reflexivity|constructor]|].
    destruct (ax_vector n v) as (l & E & S). destruct (IH (acc ++ [l])%list) as (new & E2 & F). exists (l :: new). split; [|constructor; auto].
    cbn [map foldM fst snd]. unfold step at 1. cbn [fst snd bind num_channels]. rewrite E. cbn [bind]. rewrite E2, <- app_assoc. reflexivity. }
  destruct (G []) as (new & E & F). rewrite E. eexists. split; [reflexivity|]. exact F.
Qed.
(** C140.  An export draws one diagnostic: the legend then names it, with a backslash before each underscore. *)
Theorem C140_legend name (v : list V) fig : spectrum_plot [(name, Ok (Vector v))] = Ok fig -> sf_legend fig = [escape name].
Proof. intros H. injection H as <-. reflexivity. Qed.
(** C140.  Failures: of the diagnostic itself, of a number, of values with times. *)
Theorem C140_failures name (o : res output) r before : Forall (fun d => exists v, snd d = Ok (Vector v)) before ->
  (forall e, o = Err e -> spectrum_plot (before ++ (name, o) :: r) = Err e) /\
  (forall x, o = Ok (Number x) -> spectrum_plot (before ++ (name, o) :: r) = Err IndexError) /\
  (forall values times, o = Ok (Timed values times) -> spectrum_plot (before ++ (name, o) :: r) = Err AttributeError).
Proof.
  intros HB. unfold spectrum_plot. set (step := fun lines d => _).
  assert (G : forall e, (forall acc, step acc (name, o) = Err e) -> (lines <- foldM step [] (before ++ (name, o) :: r) ;; Ok (mkSF lines (map snd (legend_without_duplicates (map (fun l => (l, l_label l)) lines))))) = Err e).
  { intros e HE. assert (G : forall acc, foldM step acc (before ++ (name, o) :: r)%list = Err e).
    { clear - HB HE. induction HB as [|[n d] b (v & Hv) HB IH]; intros acc; cbn [app foldM]; [rewrite HE; reflexivity|]. cbn [snd] in Hv. subst d.
      assert (ES : step acc (n, Ok (Vector v)) = Ok (acc ++ ax_plot n (Vector v))%list) by reflexivity. rewrite ES. cbn [bind]. apply IH. }
    rewrite G. reflexivity. }
  split; [|split]; intros; subst o; apply G; intros acc; reflexivity.
Qed.
(** C140 is false of diagnostics that give a matrix with one row per channel (such as after a preprocessing that keeps the channels): there is one curve for each column, which are
    the values of the channels at one frequency, over the numbers of the channels. *)
Theorem C140_matrix_refuted name cols (rows : list (list V)) : 0 <= cols -> (forall r, In r rows -> zlen r = cols) ->
  exists fig, spectrum_plot [(name, Ok (Matrix cols rows))] = Ok fig /\ zlen (sf_lines fig) = cols /\
    forall k, 0 <= k < cols -> exists l, zget (sf_lines fig) k = Some l /\ l_label l = name /\ zlen (l_y l) = zlen rows /\ forall j r, zget rows j = Some r -> zget (l_x l) j = Some j /\ zget (l_y l) j = zget r k.
Proof.
  intros HC HR. eexists. split; [reflexivity|]. cbn [sf_lines ax_plot foldM bind app fst snd]. split; [rewrite zlen_map, zlen_zrange; lia|].
  intros k Hk. exists (mkLine name (zrange 0 (zlen rows)) (column rows k)). split. { rewrite zget_map, zget_zrange. replace ((0 <=? k) && (k <? cols - 0))%bool with true by lia. cbn [option_map]. replace (0 + k) with k by lia. reflexivity. }
  split; [reflexivity|]. cbn [l_x l_y].
  assert (G : zlen (column rows k) = zlen rows /\ forall j r, zget rows j = Some r -> zget (column rows k) j = zget r k).
  { clear - HR Hk. induction rows as [|r rows IH]; [split; [reflexivity|]; intros j r; rewrite zget_nil; discriminate|]. destruct IH as [IH1 IH2]; [intros; apply HR; right; auto|].
    unfold column. cbn [flat_map]. fold (column rows k). destruct (zget r k) as [x|] eqn:E; [|apply zget_none_range in E; specialize (HR r (or_introl eq_refl)); lia]. cbn [app]. rewrite !zlen_cons. split; [lia|].
    intros j r' Hj. rewrite zget_cons in Hj. rewrite zget_cons. destruct (j =? 0); [injection Hj as <-; auto|]. apply IH2. exact Hj. }
  destruct G as [G1 G2]. split; [exact G1|]. intros j r Hj. split; [|apply G2; exact Hj]. pose proof (zget_some_range _ _ Hj) as R. rewrite zget_zrange. replace ((0 <=? j) && (j <? zlen rows - 0))%bool with true by lia. f_equal; try lia.
Qed.
(** C140.  A SignalPowerSpectrum without preprocessing: one curve, the mean of the spectra of the channels. *)
Theorem C140_power_spectrum name mean_of (spectra : list (list V)) : exists l fig, spectrum_plot [(name, spectrum_output mean_of spectra [])] = Ok fig /\ sf_lines fig = [l] /\ shows name (mean_of spectra) l.
Proof. destruct (ax_vector name (mean_of spectra)) as (l & E & S). exists l. eexists. split; [reflexivity|]. split; [exact E|exact S]. Qed.
End C140.

(* ------------------------------------------------------------------ examples *)
Example C140_vectors_meets : exists fig, spectrum_plot [("a"%string, Ok (Vector [5; 7])); ("b_c"%string, Ok (Vector [1]))] = Ok fig /\ sf_lines fig = [mkLine "a" [0; 1] [5; 7]; mkLine "b_c" [0] [1]] /\ sf_legend fig = ["a"; "b\_c"]%string.
Proof. eexists. split; [reflexivity|]. split; reflexivity. Qed.
Example C140_failures_meets : Forall (fun d : string * res (output Z) => exists v, snd d = Ok (Vector v)) [("a"%string, Ok (Vector [5; 7]))].
Proof. constructor; [eexists; reflexivity|constructor]. Qed.
Example C140_matrix_meets : 0 <= 3 /\ (forall r, In r [[1; 2; 3]; [4; 5; 6]] -> zlen r = 3) /\ exists fig, spectrum_plot [("a"%string, Ok (Matrix 3 [[1; 2; 3]; [4; 5; 6]]))] = Ok fig /\ sf_lines fig = [mkLine "a" [0; 1] [1; 4]; mkLine "a" [0; 1] [2; 5]; mkLine "a" [0; 1] [3; 6]].
Proof. split; [lia|]. split; [intros r [<-|[<-|[]]]; reflexivity|]. eexists. split; reflexivity. Qed.
Print Assumptions C140_vectors_partial.
Print Assumptions C140_legend.
Print Assumptions C140_failures.
Print Assumptions C140_matrix_refuted.
Print Assumptions C140_power_spectrum.
