(** C97: which files exports write.  C98: what figures over time and of impulse responses and text files show.  C99: images of sound fields. *)
Require Import Verif.PyBase Verif.PyStr Verif.PyLemmas Verif.PyStrLemmas Verif.PlotModel Verif.PlotProps Verif.ExportModel Verif.FigModel Verif.ArrayProofs.
From Coq Require Import Reals Lra.
Set Implicit Arguments.
Local Open Scope string_scope.
Local Open Scope list_scope.
Local Open Scope Z_scope.

(* ------------------------------------------------------------------ C97 *)
(** the functions that draw a figure, and all export functions *)
Definition is_figure (f : string) : Prop := In f ["function_of_time_plot"; "soundfield"; "plot_ir"; "matshow"; "spectrum_plot"].
Definition is_export (f : string) : Prop := is_figure f \/ f = "savenpz" \/ f = "txt" \/ f = "create_audio_files".
(** two functions write the same kind of file *)
Definition same_kind (f g : string) : Prop := (is_figure f /\ is_figure g) \/ f = g.
(** no two functions in the list write the same kind of file *)
Definition different_kinds (l : list string) : Prop := forall i j f g, zget l i = Some f -> zget l j = Some g -> i <> j -> ~ same_kind f g.
(** the file of one function, for figures that are saved in files with the ending [ending] *)
Inductive file_of (ending name : string) (t : Z) : string -> string -> Prop :=
| file_figure f : is_figure f -> file_of ending name t f (name ++ "_" ++ py_str t ++ ending)
| file_npz : file_of ending name t "savenpz" (name ++ "_" ++ py_str t ++ ".npz")
| file_txt : file_of ending name t "txt" (name ++ "_" ++ py_str t ++ ".json")
| file_wav : file_of ending name t "create_audio_files" (name ++ "_" ++ name ++ "_" ++ py_str t ++ ".wav").

Lemma tail_eq a b x y : slen x = slen y -> (a ++ x)%string = (b ++ y)%string -> a = b /\ x = y.
Proof.
  intros L H. assert (LA : slen a = slen b). { assert (slen (a ++ x) = slen (b ++ y)) as Q by (rewrite H; auto). rewrite !slen_app in Q. lia. }
  assert (a = b) as ->. { rewrite <- (@sprefix_app a x (slen a) eq_refl), H. apply sprefix_app. auto. }
  split; auto. eapply sapp_inv_head; eauto.
Qed.
Lemma twice_eq a b s : (a ++ s ++ a)%string = (b ++ s ++ b)%string -> a = b.
Proof.
  intros H. assert (slen a = slen b) as L. { assert (slen (a ++ s ++ a) = slen (b ++ s ++ b)) as Q by (rewrite H; auto). rewrite !slen_app in Q. lia. }
  rewrite <- (@sprefix_app a (s ++ a) (slen a) eq_refl), H. apply sprefix_app. auto.
Qed.
Lemma number_eq a b t u : 0 <= t -> 0 <= u -> (a ++ "_" ++ py_str t)%string = (b ++ "_" ++ py_str u)%string -> a = b /\ t = u.
Proof.
  intros T U H. destruct (py_str_nonneg T) as (D1 & _ & _). destruct (py_str_nonneg U) as (D2 & _ & _).
  destruct (@split_digits "_"%char a b _ _ eq_refl D1 D2 H) as [-> E]. split; auto. apply py_str_inj; auto.
Qed.
Lemma figure_smem f : smem f ["function_of_time_plot"; "soundfield"; "plot_ir"; "matshow"; "spectrum_plot"] = true <-> is_figure f.
Proof. unfold is_figure. apply smem_spec. Qed.

(** the files of one function in all print methods *)
Lemma paths_cases pm f n t l : is_export f -> export_paths pm true f n t = Ok l ->
  let file := (n ++ "_" ++ py_str t)%string in
  (is_figure f /\ (l = [] \/ (pm = "pdf" /\ l = [(file ++ ".pdf")%string]) \/ (pm = "svg" /\ l = [(file ++ ".svg")%string]) \/
                  (pm = "tikz" /\ l = [(file ++ "/" ++ file ++ ".tex")%string; (file ++ "/" ++ file ++ ".pdf")%string]))) \/
  (f = "savenpz" /\ l = [(file ++ ".npz")%string]) \/ (f = "txt" /\ l = [(file ++ ".json")%string]) \/
  (f = "create_audio_files" /\ l = [(n ++ "_" ++ file ++ ".wav")%string]).
Proof.
  intros HE H file. unfold export_paths in H. cbv zeta in H. fold file in H. destruct (smem f _) eqn:F.
  - left. split; [apply figure_smem; auto|]. unfold output_plot in H. destruct (String.eqb_spec pm "show"); [injection H as <-; auto|]. destruct (String.eqb_spec pm "tikz"); [injection H as <-; auto 6|].
    destruct (String.eqb_spec pm "pdf"); [injection H as <-; auto|]. destruct (String.eqb_spec pm "svg"); [injection H as <-; auto|]. destruct (String.eqb_spec pm "none"); [injection H as <-; auto|discriminate].
  - right. cbn [negb] in H. assert (~ is_figure f) as NF by (intros Q; apply figure_smem in Q; congruence). destruct HE as [Q|[ -> | [ -> | ->]]]; [tauto|..]; cbn in H; injection H as <-; auto.
Qed.

Lemma paths_apart pm f g n m t u l l' p : is_export f -> is_export g -> 0 <= t -> 0 <= u -> export_paths pm true f n t = Ok l -> export_paths pm true g m u = Ok l' ->
  In p l -> In p l' -> same_kind f g /\ n = m /\ t = u.
Proof.
  intros Ef Eg T U Hf Hg Il Il'. apply paths_cases in Hf; auto. apply paths_cases in Hg; auto. cbv zeta in Hf, Hg. unfold same_kind.
  assert (X : forall a b c d, (a ++ String c "")%string = (b ++ String d "")%string -> c = d). { intros a b c d E. apply tail_eq in E as [_ E]; [congruence|auto]. }
  assert (Y : forall a b (c d e f c' d' e' f' : Ascii.ascii), (a ++ String c (String d (String e (String f ""))))%string = (b ++ String c' (String d' (String e' (String f' ""))))%string -> f = f').
  { intros a b c d e ff c' d' e' f' E. apply tail_eq in E as [_ E]; [congruence|auto]. }
  assert (J : forall a b (c' d' e' f' : Ascii.ascii), (a ++ ".json")%string = (b ++ String c' (String d' (String e' (String f' ""))))%string -> f' = "n"%char).
  { intros a b c' d' e' f' E. change ".json" with ("." ++ "json")%string in E. rewrite sapp_assoc in E. apply tail_eq in E as [_ E]; [congruence|auto]. }
  assert (NE : forall x, (n ++ "_" ++ py_str t ++ x)%string = ((n ++ "_" ++ py_str t) ++ x)%string) by (intros; rewrite !sapp_assoc; auto).
  destruct Hf as [(Ff & [ -> | [(P1 & ->)|[(P1 & ->)|(P1 & ->)]]])|[(-> & ->)|[(-> & ->)|(-> & ->)]]];
    destruct Hg as [(Fg & [ -> | [(P2 & ->)|[(P2 & ->)|(P2 & ->)]]])|[(-> & ->)|[(-> & ->)|(-> & ->)]]]; cbn [In] in Il, Il'; try tauto; try congruence.
  all: repeat match goal with H : _ \/ _ |- _ => destruct H end; try tauto; subst p.
  all: match goal with H : @eq string _ _ |- _ => repeat rewrite sapp_assoc in H end.
  all: try (match goal with H : @eq string _ _ |- _ => first [apply Y in H; discriminate H|apply J in H; discriminate H|symmetry in H; apply J in H; discriminate H] end).
  all: match goal with H : @eq string (String.append _ ?x) (String.append _ ?x) |- _ => apply tail_eq in H as [H _]; [|reflexivity] end.
  all: assert (N1 : (n ++ "_" ++ py_str t)%string = (m ++ "_" ++ py_str u)%string -> n = m /\ t = u) by (apply number_eq; auto).
  all: assert (N2 : ((n ++ "_" ++ n) ++ "_" ++ py_str t)%string = ((m ++ "_" ++ m) ++ "_" ++ py_str u)%string -> n = m /\ t = u) by (intros Q; apply number_eq in Q as [Q ->]; auto; apply twice_eq in Q; auto).
  all: assert (N3 : ((n ++ "_" ++ py_str t) ++ "/" ++ (n ++ "_" ++ py_str t))%string = ((m ++ "_" ++ py_str u) ++ "/" ++ (m ++ "_" ++ py_str u))%string -> n = m /\ t = u) by (intros Q; apply twice_eq in Q; auto).
  all: repeat rewrite sapp_assoc in N1; repeat rewrite sapp_assoc in N2; repeat rewrite sapp_assoc in N3.
  all: match goal with H : @eq string (String.append _ _) _ |- _ => first [pose proof (N1 (eq_sym H))|pose proof (N2 (eq_sym H))|pose proof (N3 (eq_sym H))] end; auto.
Qed.
Lemma paths_nodup pm f n t l : is_export f -> export_paths pm true f n t = Ok l -> NoDup l.
Proof.
  intros E H. apply paths_cases in H; auto. cbv zeta in H. destruct H as [(_ & [-> | [(_ & ->)|[(_ & ->)|(_ & ->)]]])|[(_ & ->)|[(_ & ->)|(_ & ->)]]].
  all: try (repeat constructor; cbn; tauto). constructor; [|repeat constructor; cbn; tauto]. cbn [In]. intros [Q|[]]. rewrite !sapp_assoc in Q. apply tail_eq in Q as [_ Q]; [discriminate|reflexivity].
Qed.

Section C97.
Context {K A : Type}.
Notation settings := (settings K A).
(** every preprocessing function has a name, and there are as many keyword arguments and preprocessing lists as functions (see C82) *)
Definition well_set (s : settings) : Prop := zlen (s_kwargs s) = zlen (s_funcs s) /\ zlen (s_prep s) = zlen (s_funcs s) /\ forall prep f, In prep (s_prep s) -> In f prep -> has_name f = true.

Lemma fst_combine {X Y} (a : list X) (b : list Y) : zlen a = zlen b -> map fst (combine a b) = a.
Proof.
  revert b. induction a as [|x a IH]; intros b H; [auto|]. destruct b as [|y b]; rewrite ?zlen_cons, ?zlen_nil in H; [pose proof (zlen_nonneg a); lia|]. cbn. f_equal. apply IH. lia.
Qed.
Lemma calls_ok (s : settings) : well_set s -> exists calls, export_single_diag s = Ok calls /\ map (fun c => fst (fst c)) calls = s_funcs s.
Proof.
  intros (L1 & L2 & HN). unfold export_single_diag, verify_same_export_settings. replace (forallb _ _) with true.
  2: { symmetry. apply forallb_forall. intros prep I. apply forallb_forall. intros f J. eauto. }
  cbn [bind]. eexists. split; [reflexivity|]. rewrite <- (map_map fst fst). rewrite fst_combine, fst_combine; auto; rewrite ?zlen_combine; lia.
Qed.
Lemma mapM_of_map {X Y Z} (g : X -> Y) (f : Y -> res Z) l : mapM (fun x => f (g x)) l = mapM f (map g l).
Proof. induction l as [|x l IH]; cbn; auto. destruct (f (g x)); cbn; auto. rewrite IH. auto. Qed.
Lemma files_eq pm b n t (s : settings) : well_set s -> exported_files pm b n t s = (l <- mapM (fun f => export_paths pm b f n t) (s_funcs s) ;; Ok (concat l)).
Proof. intros W. unfold exported_files. destruct (calls_ok W) as (calls & -> & <-). cbn [bind]. rewrite (mapM_of_map (fun c => fst (fst c)) (fun f => export_paths pm b f n t)). auto. Qed.

(** C97.  With figures saved as pdf or svg, an export writes one file for each of its functions, in order. *)
Theorem C97_files pm ending n t (s : settings) : (pm = "pdf" /\ ending = ".pdf" \/ pm = "svg" /\ ending = ".svg") -> well_set s -> Forall is_export (s_funcs s) ->
  exists l, exported_files pm true n t s = Ok l /\ Forall2 (file_of ending n t) (s_funcs s) l.
Proof.
  intros P W F. rewrite files_eq; auto. induction F as [|f fs Ef F IH]; [exists []; split; [reflexivity|constructor]|]. destruct IH as (l & H1 & H2). cbn [mapM].
  assert (exists p, export_paths pm true f n t = Ok [p] /\ file_of ending n t f p) as (p & Hp & Fp).
  { unfold export_paths. cbv zeta. destruct (smem f _) eqn:M.
    - apply figure_smem in M. destruct P as [[-> ->]|[-> ->]]; cbn; (eexists; split; [reflexivity|]); rewrite <- !sapp_assoc; constructor; auto.
    - assert (~ is_figure f) as NF by (intros Q; apply figure_smem in Q; congruence). destruct Ef as [Q|[ -> | [ -> | -> ]]]; [tauto|..]; cbn; (eexists; split; [reflexivity|]); rewrite <- !sapp_assoc; constructor. }
  rewrite Hp. cbn [bind]. destruct (mapM _ fs) as [ll|] eqn:E; cbn [bind] in *; [|discriminate]. injection H1 as <-. exists (p :: concat ll). split; [reflexivity|constructor; auto].
Qed.

(** the files of a list of exports, each given by name, time and settings *)
Definition all_files (pm : string) (b : bool) (es : list (string * Z * settings)) : res (list string) :=
  l <- mapM (fun e => exported_files pm b (fst (fst e)) (snd (fst e)) (snd e)) es ;; Ok (concat l).

Lemma mapM_concat_in {X} (f : X -> res (list string)) l ll p : mapM f l = Ok ll -> In p (concat ll) -> exists x q, In x l /\ f x = Ok q /\ In p q.
Proof. revert ll. induction l as [|x l IH]; intros ll H I; cbn in H; [injection H as <-; destruct I|]. destruct (f x) as [q|] eqn:E; [|discriminate]. cbn in H. destruct (mapM f l) as [ll'|]; [|discriminate]. cbn in H. injection H as <-. cbn in I. apply in_app_iff in I as [I|I]; [exists x, q; split; [left; auto|auto]|]. destruct (IH ll' eq_refl I) as (y & q' & I1 & I2). exists y, q'. split; [right; auto|auto]. Qed.
Lemma NoDup_app_intro {X} (a b : list X) : NoDup a -> NoDup b -> (forall x, In x a -> ~ In x b) -> NoDup (a ++ b).
Proof. intros Na Nb D. induction Na as [|x a Nx Na IH]; auto. cbn. constructor; [rewrite in_app_iff; intros [Q|Q]; [auto|apply (D x); [left; auto|auto]]|]. apply IH. intros y I. apply D. right. auto. Qed.

(** C97.  If no diagnostic has two functions that write the same kind of file, then no file of a run is written twice: an
    export never replaces another one's result. *)
Theorem C97_kept_partial pm es l : NoDup (map fst es) -> (forall n t s, In (n, t, s) es -> 0 <= t /\ well_set s /\ Forall is_export (s_funcs s) /\ different_kinds (s_funcs s)) ->
  all_files pm true es = Ok l -> NoDup l.
Proof.
  intros ND HE H. unfold all_files in H. destruct (mapM _ es) as [ll|] eqn:E; [|discriminate]. cbn in H. injection H as <-. revert ll E. induction es as [|[[n t] s] es IH]; intros ll E.
  { cbn in E. injection E as <-. constructor. }
  cbn [mapM fst snd] in E. destruct (exported_files pm true n t s) as [q|] eqn:Q; [|discriminate]. cbn [bind] in E. destruct (mapM _ es) as [ll'|] eqn:E'; [|discriminate]. cbn [bind] in E. injection E as <-. cbn [concat].
  cbn [map fst] in ND. apply NoDup_cons_iff in ND as [NI ND]. destruct (HE n t s (or_introl eq_refl)) as (T & W & X & D). rewrite files_eq in Q; auto.
  destruct (mapM _ (s_funcs s)) as [qq|] eqn:EQ; [|discriminate]. cbn in Q. injection Q as <-. apply NoDup_app_intro.
  - clear - X D EQ T. revert qq EQ. induction X as [|f fs Ef X IH]; intros qq EQ; cbn in EQ; [injection EQ as <-; constructor|]. destruct (export_paths pm true f n t) as [p|] eqn:Ep; [|discriminate]. cbn in EQ. destruct (mapM _ fs) as [qq'|] eqn:EQ'; [|discriminate]. cbn in EQ. injection EQ as <-. cbn [concat].
    apply NoDup_app_intro; [eapply paths_nodup; eauto| |].
    + apply IH; auto. intros i j f' g' Hi Hj N. pose proof (zget_some_range _ _ Hi). pose proof (zget_some_range _ _ Hj). apply (D (i + 1) (j + 1)); try lia; rewrite zget_cons; replace (_ =? 0) with false by lia; rewrite Z.add_simpl_r; auto.
    + intros x Ix Ix'. destruct (mapM_concat_in _ _ _ EQ' Ix') as (g & p' & Ig & Eg & Ip). rewrite Forall_forall in X.
      destruct (@paths_apart pm f g n n t t p p' x) as (SK & _ & _); auto. apply In_zget in Ig as (j & Rj & Hj). apply (D 0 (j + 1) f g); auto; try lia.
      rewrite zget_cons. replace (_ =? 0) with false by lia. rewrite Z.add_simpl_r. auto.
  - apply IH; auto. intros n0 t0 s0 I0. apply (HE n0 t0 s0). right. auto.
  - intros x Ix Ix'. destruct (mapM_concat_in _ _ _ EQ Ix) as (f & p & If & Ef & Ip). destruct (mapM_concat_in _ _ _ E' Ix') as ([[m u] s'] & p' & Im & Em & Ip'). cbn [fst snd] in Em.
    destruct (HE m u s' (or_intror Im)) as (U & W' & X' & D'). rewrite files_eq in Em; auto. destruct (mapM _ (s_funcs s')) as [qq'|] eqn:EQ'; [|discriminate]. cbn in Em. injection Em as <-.
    destruct (mapM_concat_in _ _ _ EQ' Ip') as (g & p2 & Ig & Eg & Ip2). rewrite Forall_forall in X, X'. destruct (@paths_apart pm f g n m t u p p2 x) as (_ & -> & ->); auto. apply NI. change (m, u) with (fst (m, u, s')). apply in_map. auto.
Qed.

(** Two functions of the same kind write the same file: only the result of the later one is kept. *)
Theorem C97_overwritten_refuted n t (s : settings) l i j f g : well_set s -> Forall is_export (s_funcs s) -> exported_files "pdf" true n t s = Ok l ->
  zget (s_funcs s) i = Some f -> zget (s_funcs s) j = Some g -> same_kind f g -> exists p, zget l i = Some p /\ zget l j = Some p.
Proof.
  intros W X H Hi Hj SK. destruct (@C97_files "pdf" ".pdf" n t s) as (l' & H' & F2); auto. rewrite H in H'. injection H' as <-.
  assert (G : forall k f, zget (s_funcs s) k = Some f -> exists p, zget l k = Some p /\ file_of ".pdf" n t f p).
  { clear - F2. induction F2 as [|f p fs ps HF F2 IH]; intros k f' Hk; [rewrite zget_nil in Hk; discriminate|]. rewrite zget_cons in Hk |- *. destruct (k =? 0); [injection Hk as <-; eauto|]. auto. }
  destruct (G _ _ Hi) as (p & P1 & P2). destruct (G _ _ Hj) as (q & Q1 & Q2). exists p. split; auto. rewrite Q1. f_equal.
  assert (NF : ~ is_figure "savenpz" /\ ~ is_figure "txt" /\ ~ is_figure "create_audio_files") by (unfold is_figure; cbn; repeat split; intros Q; repeat destruct Q as [Q|Q]; discriminate || tauto).
  destruct P2; inversion Q2; subst; auto; destruct SK as [[? ?]|?]; tauto || congruence || (subst; tauto).
Qed.

(** Without a figure folder, figures are not saved *)
Theorem C97_no_folder_partial pm n t (s : settings) : In pm ["show"; "tikz"; "pdf"; "svg"; "none"] -> well_set s -> Forall is_figure (s_funcs s) -> exported_files pm false n t s = Ok [].
Proof.
  intros P W F. rewrite files_eq; auto. rewrite (@mapM_ok _ _ _ (fun _ => [])); [cbn; f_equal; induction (s_funcs s); cbn; auto; inversion F; auto|]. intros f I. rewrite Forall_forall in F. apply F in I. unfold export_paths. apply figure_smem in I as ->.
  unfold output_plot. cbn in P. repeat destruct P as [<-|P]; auto. tauto.
Qed.
(** but any other export makes the run fail *)
Theorem C97_no_folder_refuted pm n t (s : settings) f : In pm ["show"; "tikz"; "pdf"; "svg"; "none"] -> well_set s -> In f (s_funcs s) -> is_export f -> ~ is_figure f -> exported_files pm false n t s = Err AttributeError.
Proof.
  intros P W I Ef NF. rewrite files_eq; auto. assert (mapM (fun f => export_paths pm false f n t) (s_funcs s) = Err AttributeError) as ->; auto.
  assert (G : forall f, export_paths pm false f n t = Ok [] \/ export_paths pm false f n t = Err AttributeError).
  { intros g. unfold export_paths. destruct (smem g _); [left; unfold output_plot; cbn in P; repeat destruct P as [<-|P]; auto; tauto|right; auto]. }
  assert (export_paths pm false f n t = Err AttributeError) as EF.
  { unfold export_paths. destruct (smem f _) eqn:M; [apply figure_smem in M; tauto|auto]. }
  revert I. induction (s_funcs s) as [|g fs IH]; intros I; [destruct I|]. cbn [mapM]. destruct (G g) as [Eg|Eg]; rewrite Eg; cbn [bind]; auto. destruct I as [->|I]; [congruence|]. rewrite IH; auto.
Qed.
(** An unknown print method is refused by every figure *)
Theorem C97_unknown_method pm b n t (s : settings) f fs : ~ In pm ["show"; "tikz"; "pdf"; "svg"; "none"] -> well_set s -> s_funcs s = f :: fs -> is_figure f -> exported_files pm b n t s = Err ValueError.
Proof.
  intros P W E F. rewrite files_eq; auto. rewrite E. cbn [mapM]. unfold export_paths at 1. cbv zeta. apply figure_smem in F as ->. unfold output_plot. cbn [In] in P.
  repeat match goal with |- context [String.eqb pm ?x] => destruct (String.eqb_spec pm x); [subst; tauto|] end. auto.
Qed.
End C97.

(** a diagnostic with two figures, one with all kinds of files, and what is written *)
Definition demo_set (l : list string) : settings unit Z := mkSet l (map (fun _ => tt) l) (map (fun _ => []) l).
Lemma demo_well l : well_set (demo_set l).
Proof. unfold well_set. cbn. rewrite !zlen_map. split; auto. split; auto. intros prep f I. apply in_map_iff in I as (? & <- & _). cbn. tauto. Qed.
Example C97_example : export_settings tt (export_functions CInstant) (FList ["plot"; "matshow"]) (KList [tt; tt]) (@PNone Z) = Ok (demo_set ["plot_ir"; "matshow"]) /\
  exported_files "pdf" true "filter" 100 (demo_set ["plot_ir"; "matshow"]) = Ok ["filter_100.pdf"; "filter_100.pdf"] /\ same_kind "plot_ir" "matshow" /\
  all_files "tikz" true [("a", 1, demo_set ["function_of_time_plot"; "savenpz"; "txt"; "create_audio_files"]); ("a", 11, demo_set ["savenpz"]); ("a_1", 1, demo_set ["savenpz"])] =
    Ok ["a_1/a_1.tex"; "a_1/a_1.pdf"; "a_1.npz"; "a_1.json"; "a_a_1.wav"; "a_11.npz"; "a_1_1.npz"] /\
  different_kinds ["function_of_time_plot"; "savenpz"; "txt"; "create_audio_files"] /\ Forall is_export ["function_of_time_plot"; "savenpz"; "txt"; "create_audio_files"] /\
  exported_files "pdf" false "a" 1 (demo_set ["savenpz"]) = Err AttributeError /\ exported_files "png" true "a" 1 (demo_set ["matshow"]) = Err ValueError.
Proof.
  split; [reflexivity|]. split; [reflexivity|]. split; [left; unfold is_figure; cbn; auto 10|]. split; [reflexivity|]. split; [|split; [repeat (apply Forall_cons; [unfold is_export, is_figure; cbn; auto 10|]); apply Forall_nil|split; reflexivity]].
  intros i j f g Hi Hj N [[A B]|E].
  - unfold is_figure in A, B. cbn [zget] in Hi, Hj. pose proof (zget_some_range _ _ Hi) as Ri. pose proof (zget_some_range _ _ Hj) as Rj. change (zlen _) with 4 in Ri, Rj.
    assert (i = 0 \/ i = 1 \/ i = 2 \/ i = 3) as [ -> |[ -> |[ -> | -> ]]] by lia; assert (j = 0 \/ j = 1 \/ j = 2 \/ j = 3) as [ -> |[ -> |[ -> | -> ]]] by lia; try congruence; cbn in Hi, Hj; injection Hi as <-; injection Hj as <-; cbn in A, B; repeat (destruct A as [A|A]; try discriminate); repeat (destruct B as [B|B]; try discriminate); tauto.
  - subst g. assert (NoDup ["function_of_time_plot"; "savenpz"; "txt"; "create_audio_files"]) as ND by (repeat constructor; cbn; intros Q; repeat (destruct Q as [Q|Q]; try discriminate); tauto). apply N. eapply NoDup_zget; eauto.
Qed.

(* ------------------------------------------------------------------ C98 *)
Section C98.
Context {V : Type}.
Implicit Types (diag : @time_diag V).
(** the label of channel c *)
Inductive label_of (proc_name : string) (suffixes : option (list string)) (c : Z) : string -> Prop :=
| label_plain : suffixes = None -> label_of proc_name suffixes c proc_name
| label_suffix sufs suf : suffixes = Some sufs -> zget sufs c = Some suf -> label_of proc_name suffixes c (proc_name ++ "_" ++ suf).
(** the curves of one diagnostic: one for each channel, in order *)
Definition curves_of (p : string) diag (cs : list curve) : Prop :=
  zlen cs = zlen (t_output diag) /\
  forall c ch, zget (t_output diag) c = Some ch -> exists lab marked, label_of p (t_suffixes diag) c lab /\ zget cs c = Some (mkCurve lab (t_times diag) ch marked) /\ (marked = true <-> zlen ch < 10).
(** a diagnostic that can be plotted: one sample for each time and one suffix for each channel *)
Definition fits diag : Prop :=
  (forall ch, In ch (t_output diag) -> zlen ch = zlen (t_times diag)) /\ forall sufs, t_suffixes diag = Some sufs -> zlen sufs = zlen (t_output diag).

(** the labels that function_of_time_plot makes, if they fit *)
Definition the_labels (p : string) diag : list string :=
  match t_suffixes diag with Some sufs => map (fun suf => (p ++ "_" ++ suf)%string) sufs | None => map (fun _ => p) (zrange 0 (zlen (t_output diag))) end.
Lemma plot_ok p diag : fits diag -> zlen (the_labels p diag) = zlen (t_output diag) /\ exists cs, plot_multiple_channels (t_times diag) (t_output diag) (the_labels p diag) = Ok cs /\ curves_of p diag cs.
Proof.
  intros [F1 F2]. assert (L : zlen (the_labels p diag) = zlen (t_output diag)).
  { unfold the_labels. destruct (t_suffixes diag) as [sufs|]; rewrite zlen_map; [auto|]. rewrite zlen_zrange. pose proof (zlen_nonneg (t_output diag)). lia. }
  split; auto. unfold plot_multiple_channels.
  assert (G : forall il, In il (combine (zrange 0 (zlen (the_labels p diag))) (the_labels p diag)) -> exists ch, zget (t_output diag) (fst il) = Some ch /\ zlen ch = zlen (t_times diag)).
  { intros [i lab] I. apply in_combine_l in I. apply In_zrange in I. cbn [fst]. destruct (zget (t_output diag) i) as [ch|] eqn:E; [|exfalso; apply zget_none_range in E; lia]. exists ch. split; auto. apply F1. eapply zget_In; eauto. }
  edestruct (@mapM_total (Z * string) (@curve V)) as [cs HC]; [|rewrite HC].
  { intros il I. cbv beta. destruct (G il I) as (ch & -> & ->). rewrite Z.eqb_refl. eauto. }
  exists cs. split; auto. pose proof (mapM_zlen _ _ HC) as LC. assert (LZ : zlen (zrange 0 (zlen (the_labels p diag))) = zlen (the_labels p diag)) by (rewrite zlen_zrange; pose proof (zlen_nonneg (the_labels p diag)); lia).
  rewrite zlen_combine, LZ in LC. split; [lia|]. intros c ch Hc. pose proof (zget_some_range _ _ Hc) as R.
  destruct (zget (the_labels p diag) c) as [lab|] eqn:E; [|exfalso; apply zget_none_range in E; lia].
  assert (HP : zget (combine (zrange 0 (zlen (the_labels p diag))) (the_labels p diag)) c = Some (c, lab)). { apply zget_combine; auto. rewrite zget_zrange. replace ((0 <=? c) && (c <? zlen (the_labels p diag) - 0))%bool with true by lia. auto. }
  destruct (mapM_zget _ _ _ HC HP) as (cv & H1 & H2). cbn [fst snd] in H2. rewrite Hc in H2. destruct (_ =? _); [|discriminate]. injection H2 as <-. exists lab, (zlen ch <? 10). split; [|split; [auto|lia]].
  unfold the_labels in E. destruct (t_suffixes diag) as [sufs|]; rewrite zget_map in E.
  - destruct (zget sufs c) as [suf|] eqn:S; [|discriminate]. cbn in E. injection E as <-. econstructor; eauto.
  - destruct (zget (zrange _ _) c); [|discriminate]. cbn in E. injection E as <-. constructor. auto.
Qed.
Lemma labels_eq p diag : zlen (the_labels p diag) = zlen (t_output diag) ->
  match t_suffixes diag with Some sufs => let labels := map (fun suf => (p ++ "_" ++ suf)%string) sufs in _ <- passert (zlen labels =? zlen (t_output diag)) ;; Ok labels
  | None => Ok (map (fun _ => p) (zrange 0 (zlen (t_output diag)))) end = Ok (the_labels p diag).
Proof. unfold the_labels. destruct (t_suffixes diag); auto. intros ->. cbv zeta. rewrite Z.eqb_refl. auto. Qed.

(** C98.  Every channel of every diagnostic is drawn as one curve, its values over their times, and labelled; the axes and the
    title are described by the last diagnostic. *)
Theorem C98_time name diags : diags <> [] -> (forall p diag, In (p, diag) diags -> fits diag) ->
  exists fig parts, function_of_time_plot name diags = Ok fig /\ f_curves fig = concat parts /\ Forall2 (fun pd cs => curves_of (fst pd) (snd pd) cs) diags parts /\
    forall before p diag, diags = before ++ [(p, diag)] -> f_xlabel fig = t_xlabel diag /\ f_ylabel fig = t_ylabel diag /\ f_title fig = (t_title diag ++ " - " ++ name)%string.
Proof.
  intros NE F. unfold function_of_time_plot. set (step := fun curves pd => _). assert (G : forall acc, exists parts, foldM step acc diags = Ok (acc ++ concat parts) /\ Forall2 (fun pd cs => curves_of (fst pd) (snd pd) cs) diags parts).
  { clear NE. induction diags as [|[p diag] diags IH]; intros acc; [exists []; split; [cbn; rewrite app_nil_r; auto|constructor]|]. destruct (@plot_ok p diag) as (L & cs & H1 & H2); [eapply F; left; auto|].
    assert (step acc (p, diag) = Ok (acc ++ cs)) as ES. { unfold step. cbv beta iota zeta. pose proof (@labels_eq p diag L) as LE. cbv zeta in LE. rewrite LE. cbn [bind]. rewrite H1. auto. }
    cbn [foldM]. rewrite ES. cbn [bind]. destruct IH with (acc := acc ++ cs) as (parts & E & F2); [intros; eapply F; right; eauto|]. rewrite E. exists (cs :: parts). split; [cbn; rewrite app_assoc; auto|constructor; auto]. }
  destruct (G []) as (parts & E & F2). rewrite E. cbn [bind app]. destruct (rev diags) as [|[p diag] r] eqn:R. { exfalso. apply NE. rewrite <- (rev_involutive diags), R. auto. }
  eexists. exists parts. split; [reflexivity|]. cbn. split; auto. split; auto. intros before p' diag' ->. rewrite rev_app_distr in R. cbn in R. injection R as <- <- _. auto.
Qed.

(** A wrong number of suffixes, or of samples, is refused. *)
Theorem C98_refused name p diag r : 
  (forall sufs, t_suffixes diag = Some sufs -> zlen sufs <> zlen (t_output diag) -> function_of_time_plot name ((p, diag) :: r) = Err AssertionError) /\
  (forall ch, In ch (t_output diag) -> zlen ch <> zlen (t_times diag) -> (forall sufs, t_suffixes diag = Some sufs -> zlen sufs = zlen (t_output diag)) -> function_of_time_plot name ((p, diag) :: r) = Err ValueError).
Proof.
  unfold function_of_time_plot. split.
  - intros sufs E N. cbn [foldM]. rewrite E. cbv zeta. rewrite zlen_map. apply Z.eqb_neq in N as ->. reflexivity.
  - intros ch I N S. cbn [foldM]. assert (L : zlen (the_labels p diag) = zlen (t_output diag)).
    { unfold the_labels. destruct (t_suffixes diag) as [sufs|]; rewrite zlen_map; [auto|]. rewrite zlen_zrange. pose proof (zlen_nonneg (t_output diag)). lia. }
    pose proof (@labels_eq p diag L) as LE. cbv zeta in LE |- *. rewrite LE. cbn [bind]. assert (plot_multiple_channels (t_times diag) (t_output diag) (the_labels p diag) = Err ValueError) as ->; auto.
    unfold plot_multiple_channels. rewrite L. apply In_zget in I as (c & Rc & Hc). destruct (zget (the_labels p diag) c) as [lab|] eqn:E; [|exfalso; apply zget_none_range in E; lia].
    assert (HI : In (c, lab) (combine (zrange 0 (zlen (t_output diag))) (the_labels p diag))). { eapply zget_In, zget_combine; [|exact E]. rewrite zget_zrange. replace ((0 <=? c) && (c <? zlen (t_output diag) - 0))%bool with true by lia. reflexivity. }
    revert HI. generalize (combine (zrange 0 (zlen (t_output diag))) (the_labels p diag)) as l. intros l. induction l as [|[k lb] l IH]; intros HI; [destruct HI|]. cbn [mapM fst snd].
    destruct (zget (t_output diag) k) as [chk|] eqn:Ek; cbn [bind]; auto. destruct (Z.eqb_spec (zlen (t_times diag)) (zlen chk)) as [Q|Q]; cbn [bind]; auto. destruct HI as [HI|HI]; [injection HI as -> ->; congruence|]. rewrite IH; auto.
Qed.

Lemma legend_same (l : list (@curve V * string)) lab : (forall e, In e l -> snd e = lab) -> escape lab = lab -> l <> [] -> map snd (legend_without_duplicates l) = [lab].
Proof.
  intros H E N. unfold legend_without_duplicates. destruct l as [|e l]; [congruence|]. cbn [fold_left map]. rewrite (H e (or_introl eq_refl)). cbn [smem existsb map app]. rewrite E.
  assert (G : forall (l : list (@curve V * string)) x, (forall e, In e l -> snd e = lab) -> fold_left (fun shown e => if smem (snd e) (map snd shown) then shown else shown ++ [(fst e, escape (snd e))]) l [(x, lab)] = [(x, lab)]).
  { clear. induction l as [|e l IH]; intros x H; auto. cbn [fold_left map snd]. rewrite (H e (or_introl eq_refl)). cbn [smem existsb]. rewrite String.eqb_refl. cbn [orb]. apply IH. intros. apply H. right. auto. }
  cbn [smem existsb] in *. rewrite G; [auto|]. intros. apply H. right. auto.
Qed.
Lemma legend_all (l : list (@curve V * string)) lab : (forall e, In e l -> snd e = lab) -> escape lab <> lab -> map snd (legend_without_duplicates l) = map (fun _ => escape lab) l.
Proof.
  intros H E. unfold legend_without_duplicates.
  assert (G : forall (l sh : list (@curve V * string)), (forall e, In e l -> snd e = lab) -> (forall x, In x (map snd sh) -> x = escape lab) ->
    map snd (fold_left (fun shown e => if smem (snd e) (map snd shown) then shown else shown ++ [(fst e, escape (snd e))]) l sh) = map snd sh ++ map (fun _ => escape lab) l).
  { clear l H. induction l as [|e l IH]; intros sh H HS; [cbn; rewrite app_nil_r; auto|]. cbn [fold_left]. rewrite (H e (or_introl eq_refl)). destruct (smem lab (map snd sh)) eqn:M; [apply smem_spec, HS in M; congruence|].
    rewrite IH; [|intros; apply H; right; auto|]. { rewrite map_app, <- app_assoc. auto. } intros x I. rewrite map_app in I. apply in_app_iff in I as [I|[<-|[]]]; auto. }
  rewrite G; auto. cbn. tauto.
Qed.
(** without diagnostics there is nothing to take the title from *)
Theorem C98_no_diagnostics name : @function_of_time_plot V name [] = Err UnboundLocalError.
Proof. reflexivity. Qed.
(** nor, for impulse responses, the number of columns; a figure without columns is refused *)
Theorem C98_no_responses (diags : list (string * (list (list (list V)) * list (list (list V))))) :
  ((forall p raw out, In (p, (raw, out)) diags -> raw = []) -> plot_ir diags = Err UnboundLocalError) /\
  forall p raw out, plot_ir (diags ++ [(p, (raw ++ [[]], out))]) = Err ValueError.
Proof.
  split.
  - intros H. unfold plot_ir. assert (concat (map (fun d => fst (snd d)) diags) = []) as ->; [|reflexivity].
    induction diags as [|[p [raw out]] r IH]; auto. cbn [map concat fst snd]. rewrite (H p raw out) by (left; auto). apply IH. intros; eapply H; right; eauto.
  - intros p raw out. unfold plot_ir. rewrite map_app, concat_app. cbn [map concat fst snd]. rewrite app_nil_r, app_assoc, rev_app_distr. reflexivity.
Qed.
(** The legend of a single diagnostic, which is what an export shows: one entry for the diagnostic; but one for each channel if
    the name has an underscore. *)
Theorem C98_legend_partial name p diag fig : function_of_time_plot name [(p, diag)] = Ok fig -> t_suffixes diag = None -> t_output diag <> [] -> escape p = p -> f_legend fig = [p].
Proof.
  intros H S N E. unfold function_of_time_plot in H. cbn [foldM] in H. rewrite S in H. cbn [bind] in H. destruct (plot_multiple_channels _ _ _) as [cs|] eqn:EC; [|discriminate]. cbn [bind rev app foldM] in H. injection H as <-. cbn [f_legend].
  unfold plot_multiple_channels in EC. apply legend_same; auto.
  - intros e I. apply in_map_iff in I as (c & <- & I). cbn [snd]. apply In_zget in I as (k & _ & I). destruct (mapM_zget_back _ _ _ EC I) as ([i lab] & Hil & E2). cbn [fst snd] in E2. apply zget_In, in_combine_r, in_map_iff in Hil as (? & <- & _).
    destruct (zget _ i); [|discriminate]. destruct (_ =? _); [|discriminate]. injection E2 as <-. auto.
  - intros Q. apply map_eq_nil in Q. subst cs. pose proof (mapM_zlen _ _ EC) as L. rewrite zlen_combine, zlen_zrange, zlen_map, zlen_zrange, zlen_nil in L. destruct (t_output diag); [congruence|]. rewrite zlen_cons in L. pose proof (zlen_nonneg l0). lia.
Qed.
Theorem C98_legend_refuted name p diag fig : function_of_time_plot name [(p, diag)] = Ok fig -> t_suffixes diag = None -> escape p <> p -> f_legend fig = map (fun _ => escape p) (t_output diag).
Proof.
  intros H S E. unfold function_of_time_plot in H. cbn [foldM] in H. rewrite S in H. cbn [bind] in H. destruct (plot_multiple_channels _ _ _) as [cs|] eqn:EC; [|discriminate]. cbn [bind rev app foldM] in H. injection H as <-. cbn [f_legend].
  unfold plot_multiple_channels in EC. rewrite (@legend_all _ p); auto.
  - pose proof (mapM_zlen _ _ EC) as L. rewrite zlen_combine, zlen_zrange, zlen_map, zlen_zrange in L. assert (LL : length cs = length (t_output diag)) by (unfold zlen in *; lia). clear - LL. revert LL. generalize (t_output diag) as o. induction cs as [|c cs IH]; intros [|x o] LL; cbn in *; auto; try lia. f_equal. apply IH. lia.
  - intros e I. apply in_map_iff in I as (c & <- & I). cbn [snd]. apply In_zget in I as (k & _ & I). destruct (mapM_zget_back _ _ _ EC I) as ([i lab] & Hil & E2). cbn [fst snd] in E2. apply zget_In, in_combine_r, in_map_iff in Hil as (? & <- & _).
    destruct (zget _ i); [|discriminate]. destruct (_ =? _); [|discriminate]. injection E2 as <-. auto.
Qed.

(** the curves drawn at [row, col], in order *)
Definition drawn_at (cs : list (@ir_curve V)) (row col : Z) : list (@ir_curve V) := filter (fun c => ((i_row c =? row) && (i_col c =? col))%bool) cs.

Lemma filter_concat {X} (f : X -> bool) (l : list (list X)) : filter f (concat l) = concat (map (filter f) l).
Proof. induction l as [|x l IH]; auto. cbn. rewrite filter_app, IH. auto. Qed.
Lemma filter_none {X} (f : X -> bool) (l : list X) : (forall x, In x l -> f x = false) -> filter f l = [].
Proof. induction l as [|x l IH]; intros H; auto. cbn. rewrite (H x (or_introl eq_refl)). apply IH. intros. apply H. right. auto. Qed.

(** all calls of plot, without checks *)
Definition ir_row (row : Z) (p : string) (output : list (list (list V))) : list (@ir_curve V) :=
  concat (map (fun ir_set => map (fun cy => mkIR row (fst cy) p (snd cy)) (combine (zrange 0 (zlen ir_set)) ir_set)) output).

Lemma set_at row p (ir_set : list (list V)) r c y : zget ir_set c = Some y ->
  filter (fun x => ((i_row x =? r) && (i_col x =? c))%bool) (map (fun cy => mkIR row (fst cy) p (snd cy)) (combine (zrange 0 (zlen ir_set)) ir_set)) = if row =? r then [mkIR row c p y] else [].
Proof.
  intros H. destruct (Z.eqb_spec row r) as [->|N].
  2: { apply filter_none. intros x I. apply in_map_iff in I as (? & <- & _). cbn. apply Z.eqb_neq in N as ->. auto. }
  pose proof (zget_some_range _ _ H) as R.
  assert (G : forall (l : list (list V)) a, 0 <= c - a -> zget l (c - a) = Some y -> filter (fun x => ((i_row x =? r) && (i_col x =? c))%bool) (map (fun cy => mkIR r (fst cy) p (snd cy)) (combine (zrange a (a + zlen l)) l)) = [mkIR r c p y]).
  { clear. induction l as [|x l IH]; intros a LE H; [rewrite zget_nil in H; discriminate|]. rewrite zlen_cons. pose proof (zlen_nonneg l). rewrite (@zrange_cons a) by lia. cbn [combine map filter i_row i_col fst snd]. rewrite Z.eqb_refl. cbn [andb].
    rewrite zget_cons in H. destruct (Z.eqb_spec (c - a) 0) as [Q|Q].
    - injection H as ->. replace a with c by lia. rewrite Z.eqb_refl. f_equal. apply filter_none. intros x I. apply in_map_iff in I as ([k z] & <- & I). apply in_combine_l, In_zrange in I. cbn. rewrite Z.eqb_refl. cbn. lia.
    - replace (a =? c) with false by lia. replace (a + (1 + zlen l)) with (a + 1 + zlen l) by lia. apply IH; [lia|]. replace (c - (a + 1)) with (c - a - 1) by lia. auto. }
  specialize (G ir_set 0). rewrite Z.sub_0_r in G. apply G; auto. lia.
Qed.

Section IR.
Variables (diags : list (string * (list (list (list V)) * list (list (list V))))) (n : Z).
(** there is a set, and every set has n impulse responses, before and after preprocessing *)
Definition same_size : Prop := 1 <= n /\ (exists p raw out s, In (p, (raw, out)) diags /\ In s raw) /\ forall p raw out s, In (p, (raw, out)) diags -> In s raw \/ In s out -> zlen s = n.
(** C98.  For sets of equal size, row and column (i, j) of the figure show impulse response j of every set of diagnostic i, in
    the order of the sets, labelled with the diagnostic's name. *)
Theorem C98_ir_partial : same_size -> exists cs, plot_ir diags = Ok cs /\
  (forall c, In c cs -> 0 <= i_row c < zlen diags /\ 0 <= i_col c < n) /\
  forall i j p raw out, zget diags i = Some (p, (raw, out)) -> 0 <= j < n ->
    Forall2 (fun s c => c = mkIR i j p (i_y c) /\ zget s j = Some (i_y c)) out (drawn_at cs i j).
Proof.
  intros (N1 & (p0 & raw0 & out0 & s0 & I0 & J0) & HS). unfold plot_ir.
  destruct (rev (concat (map (fun d => fst (snd d)) diags))) as [|lst r] eqn:R.
  { exfalso. assert (In s0 (concat (map (fun d => fst (snd d)) diags))) as Q by (apply in_concat; exists raw0; split; auto; apply in_map_iff; exists (p0, (raw0, out0)); auto). apply in_rev in Q. rewrite R in Q. destruct Q. }
  assert (LL : zlen lst = n). { assert (In lst (concat (map (fun d => fst (snd d)) diags))) as Q by (apply in_rev; rewrite R; left; auto). apply in_concat in Q as (l & Q1 & Q2). apply in_map_iff in Q1 as ((p & raw & out) & <- & Q1). apply (HS p raw out); auto. }
  cbn [bind]. rewrite LL. replace (n =? 0) with false by lia.
  rewrite (@mapM_ok _ _ _ (fun rd => ir_row (fst rd) (fst (snd rd)) (snd (snd (snd rd))))).
  2: { intros [row (p & raw & out)] I. apply in_combine_r in I. cbn [fst snd]. unfold ir_row. rewrite (@mapM_ok _ _ _ (fun ir_set => map (fun cy => mkIR row (fst cy) p (snd cy)) (combine (zrange 0 (zlen ir_set)) ir_set))); auto.
    intros s Is. apply mapM_ok. intros [c y] Ic. apply in_combine_l, In_zrange in Ic. rewrite (HS p raw out s I) in Ic by auto. cbn [fst snd]. replace (c <? n) with true by lia. auto. }
  cbn [bind]. eexists. split; [reflexivity|]. split.
  - intros c I. apply in_concat in I as (l & Il & I). apply in_map_iff in Il as ([row (p & raw & out)] & <- & Id). cbn [fst snd] in I. pose proof (in_combine_l _ _ _ _ Id) as Ir. apply In_zrange in Ir. apply in_combine_r in Id.
    unfold ir_row in I. apply in_concat in I as (l & Il & I). apply in_map_iff in Il as (s & <- & Is). apply in_map_iff in I as ([k y] & <- & I). apply in_combine_l, In_zrange in I. rewrite (HS p raw out s Id) in I by auto. cbn. lia.
  - intros i j p raw out Hi Hj. unfold drawn_at. rewrite filter_concat, map_map. pose proof (zget_some_range _ _ Hi) as Ri.
    assert (RW : forall row q o, (forall s, In s o -> exists y, zget s j = Some y) -> row <> i -> filter (fun c => ((i_row c =? i) && (i_col c =? j))%bool) (ir_row row q o) = []).
    { intros row q o _ NE. apply filter_none. intros x I. unfold ir_row in I. apply in_concat in I as (l & Il & I). apply in_map_iff in Il as (s & <- & _). apply in_map_iff in I as (? & <- & _). cbn. apply Z.eqb_neq in NE as ->. auto. }
    assert (GS : forall (row : Z) q rw o s, In (q, (rw, o)) diags -> In s o -> exists y, zget s j = Some y). { intros row q rw o s I Is. apply zget_in_range. rewrite (HS q rw o s I); auto. }
    assert (G : forall ds a, (forall d, In d ds -> In d diags) -> a <= i -> zget ds (i - a) = Some (p, (raw, out)) ->
      concat (map (fun rd => filter (fun c => ((i_row c =? i) && (i_col c =? j))%bool) (ir_row (fst rd) (fst (snd rd)) (snd (snd (snd rd))))) (combine (zrange a (a + zlen ds)) ds)) =
      filter (fun c => ((i_row c =? i) && (i_col c =? j))%bool) (ir_row i p out)).
    { induction ds as [|(q & rw & o) ds IH]; intros a Sub LE Hg; [rewrite zget_nil in Hg; discriminate|]. rewrite zlen_cons. pose proof (zlen_nonneg ds). rewrite (@zrange_cons a) by lia. cbn [combine map concat fst snd]. rewrite zget_cons in Hg. destruct (Z.eqb_spec (i - a) 0) as [Q|Q].
      - injection Hg as -> -> ->. replace a with i by lia. match goal with |- _ ++ ?t = _ => assert (t = []) as -> end; [|apply app_nil_r].
        assert (forall ds' b, i < b -> (forall d, In d ds' -> In d diags) -> concat (map (fun rd => filter (fun c => ((i_row c =? i) && (i_col c =? j))%bool) (ir_row (fst rd) (fst (snd rd)) (snd (snd (snd rd))))) (combine (zrange b (b + zlen ds')) ds')) = []) as K.
        { induction ds' as [|(q' & rw' & o') ds' IH']; intros b LB S'; [destruct (zrange b _); auto|]. rewrite zlen_cons. pose proof (zlen_nonneg ds'). rewrite (@zrange_cons b) by lia. cbn [combine map concat fst snd]. rewrite RW; [|intros s Is; eapply (GS 0); [apply S'; left; reflexivity|auto]|lia]. cbn [app]. replace (b + (1 + zlen ds')) with (b + 1 + zlen ds') by lia. apply IH'; [lia|]. intros. apply S'. right. auto. }
        replace (i + (1 + zlen ds)) with (i + 1 + zlen ds) by lia. apply K; [lia|]. intros. apply Sub. right. auto.
      - rewrite RW; [|intros s Is; eapply (GS 0); [apply Sub; left; reflexivity|auto]|lia]. cbn [app]. replace (a + (1 + zlen ds)) with (a + 1 + zlen ds) by lia. apply IH; [intros; apply Sub; right; auto|lia|]. replace (i - (a + 1)) with (i - a - 1) by lia. auto. }
    specialize (G diags 0 (fun d H => H)). rewrite Z.sub_0_r in G. change (0 + zlen diags) with (zlen diags) in G. rewrite G; auto; [|lia].
    pose proof (zget_In _ _ Hi) as Id. assert (GO : forall s, In s out -> exists y, zget s j = Some y) by (intros; eapply (GS 0); eauto). unfold ir_row. rewrite filter_concat, map_map. clear - GO. induction out as [|s out IH]; [constructor|]. destruct (GO s (or_introl eq_refl)) as [y Y]. cbn [map concat]. rewrite (@set_at i p s i j y Y), Z.eqb_refl. cbn [app]. constructor; [cbn; auto|]. apply IH. intros. apply GO. right. auto.
Qed.
End IR.
(** The number of columns is that of the last set: if an earlier set is larger, nothing is drawn. *)
Theorem C98_ir_refuted p (small big : list (list V)) : 1 <= zlen small < zlen big -> plot_ir [(p, ([big; small], [big; small]))] = Err IndexError.
Proof.
  intros H. unfold plot_ir. cbn [map concat fst snd rev app bind]. replace (zlen small =? 0) with false by lia. change (zrange 0 (zlen [(p, ([big; small], [big; small]))])) with [0]. cbn [combine mapM].
  assert (mapM (fun cy : Z * list V => let '(col, y) := cy in if col <? zlen small then Ok (mkIR 0 col p y) else Err IndexError) (combine (zrange 0 (zlen big)) big) = Err IndexError) as ->; auto.
  assert (G : forall (l : list (list V)) a, 0 <= a <= zlen small -> zlen small < a + zlen l -> mapM (fun cy : Z * list V => let '(col, y) := cy in if col <? zlen small then Ok (mkIR 0 col p y) else Err IndexError) (combine (zrange a (a + zlen l)) l) = Err IndexError).
  { induction l as [|x l IH]; intros a R L; [rewrite zlen_nil in L; lia|]. rewrite zlen_cons in *. pose proof (zlen_nonneg l). rewrite (@zrange_cons a) by lia. cbn [combine mapM]. destruct (Z.ltb_spec a (zlen small)); cbn [bind]; auto. replace (a + (1 + zlen l)) with (a + 1 + zlen l) by lia. rewrite IH; auto; lia. }
  apply (G big 0); lia.
Qed.
(** matshow shows every matrix in its own axes, in order *)
Theorem C98_matshow name (outputs : list (string * list (list V))) i p m : zget outputs i = Some (p, m) <-> exists t, zget (matshow name outputs) i = Some (t, m) /\ t = (name ++ " - " ++ p)%string.
Proof.
  unfold matshow. rewrite zget_map. destruct (zget outputs i) as [[q m']|]; cbn.
  - split; [intros H; injection H as -> ->; eauto|]. intros (t & H & E). injection H as <- ->. f_equal. f_equal. symmetry in E. apply sapp_inv_head in E. injection E as ->. auto.
  - split; [discriminate|]. intros (t & H & _). discriminate.
Qed.
End C98.

Section C98_text.
Local Open Scope R_scope.
(** m is the mean of the numbers in l: as many copies of m have the same sum *)
Definition total (l : list R) : R := fold_left Rplus l 0.
Definition mean_of (l : list R) (m : R) : Prop := total l = IZR (zlen l) * m.
Lemma total_sum l : total l = rsum_ l.
Proof. unfold total, rsum_. enough (G : forall a, fold_left Rplus l a = a + fold_right Rplus 0 l) by (rewrite G; lra). induction l as [|x l IH]; intros a; cbn; [lra|]. rewrite IH. lra. Qed.
(** The text file holds the mean over all channels and samples for each diagnostic. *)
Theorem C98_text (outputs : list (string * list (list R))) i : 
  (zget outputs i = None <-> zget (txt outputs) i = None) /\
  forall p x, zget outputs i = Some (p, x) -> (concat x <> [] -> exists m, zget (txt outputs) i = Some (p, Some m) /\ mean_of (concat x) m) /\ (concat x = [] -> zget (txt outputs) i = Some (p, None)).
Proof.
  unfold txt. rewrite zget_map. destruct (zget outputs i) as [[q y]|]; cbn; [|split; [tauto|discriminate]]. split; [split; discriminate|]. intros p x H. injection H as -> ->. split; intros E.
  - destruct (concat x) as [|v l] eqn:C; [congruence|]. cbn [np_mean]. eexists. split; [reflexivity|]. unfold mean_of. rewrite total_sum. field. apply not_0_IZR. rewrite zlen_cons. pose proof (zlen_nonneg l). lia.
  - rewrite E. auto.
Qed.
End C98_text.

(* ------------------------------------------------------------------ C99 *)
Section C99.
Local Open Scope R_scope.
Variables (u : Z) (argsort : list Z -> list Z) (close : Z -> Z -> bool).
Notation soundfield := (soundfield u argsort close).
Notation sorted_field := (sort_for_imshow u argsort close).
(** m is the largest, or smallest, number in l *)
Definition largest (l : list R) (m : R) : Prop := In m l /\ forall x, In x l -> x <= m.
Definition smallest (l : list R) (m : R) : Prop := In m l /\ forall x, In x l -> m <= x.
Lemma np_max_ok l : l <> [] -> exists m, np_max l = Ok m /\ largest l m.
Proof.
  destruct l as [|x r]; [congruence|]. intros _. eexists. split; [reflexivity|]. induction r as [|y r [I H]]; cbn [fold_right]; [split; [left; auto|intros z [<-|[]]; lra]|]. split.
  - apply (Rmax_case y (fold_right Rmax x r) (fun m => In m (x :: y :: r))); [right; left; auto|]. destruct I as [I|I]; [left; auto|right; right; auto].
  - intros z [<-|[<-|Iz]]; [eapply Rle_trans; [apply H; left; auto|apply Rmax_r]|apply Rmax_l|eapply Rle_trans; [apply H; right; auto|apply Rmax_r]].
Qed.
Lemma np_min_ok l : l <> [] -> exists m, np_min l = Ok m /\ smallest l m.
Proof.
  destruct l as [|x r]; [congruence|]. intros _. eexists. split; [reflexivity|]. induction r as [|y r [I H]]; cbn [fold_right]; [split; [left; auto|intros z [<-|[]]; lra]|]. split.
  - apply (Rmin_case y (fold_right Rmin x r) (fun m => In m (x :: y :: r))); [right; left; auto|]. destruct I as [I|I]; [left; auto|right; right; auto].
  - intros z [<-|[<-|Iz]]; [eapply Rle_trans; [apply Rmin_r|apply H; left; auto]|apply Rmin_l|eapply Rle_trans; [apply Rmin_r|apply H; right; auto]].
Qed.
Lemma extremes (pick : list R -> res R) (best : list R -> R -> Prop) (le : R -> R -> Prop) (ds : list (string * sf_diag)) :
  (forall a b c, le a b -> le b c -> le a c) -> (forall l m, best l m <-> In m l /\ forall x, In x l -> le x m) -> (forall l, l <> [] -> exists m, pick l = Ok m /\ best l m) ->
  ds <> [] -> (forall p d, In (p, d) ds -> d_power d <> []) ->
  exists ms m, mapM (fun d => pick (d_power (snd d))) ds = Ok ms /\ pick ms = Ok m /\ best (concat (map (fun d => d_power (snd d)) ds)) m.
Proof.
  intros TR HB HP NE HD. assert (exists ms, mapM (fun d => pick (d_power (snd d))) ds = Ok ms /\ Forall2 (fun d m => best (d_power (snd d)) m) ds ms) as (ms & E & F2).
  { clear NE. induction ds as [|[p d] ds IH]; [exists []; split; [reflexivity|constructor]|]. destruct (HP (d_power d)) as (m & H1 & H2); [eapply HD; left; auto|]. destruct IH as (ms & H3 & H4); [intros; eapply HD; right; eauto|]. exists (m :: ms). cbn [mapM snd]. rewrite H1. cbn [bind]. rewrite H3. split; [reflexivity|constructor; auto]. }
  destruct (HP ms) as (m & H1 & H2). { intros ->. inversion F2. congruence. }
  exists ms, m. split; auto. split; auto. apply HB in H2 as [I H2]. apply HB. split.
  - clear - F2 I HB. induction F2 as [|d m' ds ms' B F2 IH]; [destruct I|]. cbn. apply in_app_iff. destruct I as [<-|I]; [left; apply HB in B; tauto|right; auto].
  - clear - F2 H2 HB TR. intros x Ix. induction F2 as [|d m' ds ms' B F2 IH]; [destruct Ix|]. cbn in Ix. apply in_app_iff in Ix as [Ix|Ix]; [|apply IH; auto; intros; apply H2; right; auto]. apply HB in B as [_ B]. eapply TR; [apply B; auto|]. apply H2. left. auto.
Qed.

(** C99.  Every sound field is shown in its own image, sorted by position (see C84), and all images use the same colours: the
    darkest for the smallest value of all images and the brightest for the largest one. *)
Theorem C99_images_partial ds : ds <> [] -> (forall p d, In (p, d) ds -> d_power d <> [] /\ d_arrays d = None /\ exists P W, sorted_field (d_pos d) (d_z d) (d_power d) = Ok (P, W)) ->
  exists imgs lo hi, soundfield ds = Ok imgs /\ smallest (concat (map (fun d => d_power (snd d)) ds)) lo /\ largest (concat (map (fun d => d_power (snd d)) ds)) hi /\
    Forall2 (fun d img => m_title img = fst d /\ sorted_field (d_pos (snd d)) (d_z (snd d)) (d_power (snd d)) = Ok (m_pos img, m_values img) /\ m_vmin img = lo /\ m_vmax img = hi) ds imgs.
Proof.
  intros NE H. unfold soundfield.
  destruct (@extremes np_max largest Rle ds) as (ms & hi & E1 & E2 & L1); auto; [intros; eapply Rle_trans; eauto|intros; reflexivity|apply np_max_ok|intros p d I; destruct (H p d I); auto|].
  destruct (@extremes np_min smallest Rge ds) as (ns & lo & E3 & E4 & L2); auto; [intros; eapply Rge_trans; eauto|intros l m; unfold smallest; split; intros [Q1 Q2]; split; auto; intros; [apply Rle_ge|apply Rge_le]; auto|apply np_min_ok|intros p d I; destruct (H p d I); auto|].
  unfold FigModel.soundfield. rewrite E1. cbn [bind]. rewrite E2. cbn [bind]. rewrite E3. cbn [bind]. rewrite E4. cbn [bind]. clear E1 E2 E3 E4 NE.
  assert (exists imgs, mapM (fun d => ps <- sorted_field (d_pos (snd d)) (d_z (snd d)) (d_power (snd d)) ;;
    match d_arrays (snd d) with Some n => if (0 <? n)%Z then Err TypeError else Ok (mkImage (fst d) (fst ps) (snd ps) lo hi) | None => Ok (mkImage (fst d) (fst ps) (snd ps) lo hi) end) ds = Ok imgs /\
    Forall2 (fun d img => m_title img = fst d /\ sorted_field (d_pos (snd d)) (d_z (snd d)) (d_power (snd d)) = Ok (m_pos img, m_values img) /\ m_vmin img = lo /\ m_vmax img = hi) ds imgs) as (imgs & G1 & G2).
  { clear L1 L2. induction ds as [|[p d] ds IH]; [exists []; split; [reflexivity|constructor]|]. destruct (H p d (or_introl eq_refl)) as (_ & HA & P & W & E). destruct IH as (imgs & H1 & H2); [intros; apply (H p0 d0); right; auto|].
    cbn [mapM fst snd]. rewrite E, HA. cbn [bind fst snd]. rewrite H1. cbn [bind]. eexists. split; [reflexivity|]. constructor; cbn; auto. }
  exists imgs, lo, hi. split; [exact G1|]. auto.
Qed.
(** without diagnostics, or with one without values, there are no colours to choose *)
Theorem C99_no_values ds : ds = [] \/ (exists p d, In (p, d) ds /\ d_power d = []) -> soundfield ds = Err ValueError.
Proof.
  intros H. unfold soundfield, FigModel.soundfield. destruct H as [->|(p & d & I & H)]; [reflexivity|].
  assert (mapM (fun d => np_max (d_power (snd d))) ds = Err ValueError) as ->; [|reflexivity].
  induction ds as [|[q e] r IH]; [contradiction|]. cbn [mapM snd]. destruct (d_power e) as [|x l] eqn:Q; [reflexivity|]. cbn [np_max bind]. destruct I as [I|I]; [injection I as -> ->; congruence|]. rewrite IH by auto. reflexivity.
Qed.
(** If arrays are to be shown in the images, drawing them fails *)
Theorem C99_arrays_refuted ds p d k : In (p, d) ds -> d_arrays d = Some k -> (0 < k)%Z -> exists e, soundfield ds = Err e.
Proof.
  intros I HA K. unfold FigModel.soundfield. destruct (mapM _ ds) as [ms|e]; [|cbn; eauto]. cbn [bind]. destruct (np_max ms) as [hi|e]; [|cbn; eauto]. cbn [bind]. destruct (mapM _ ds) as [ns|e]; [|cbn; eauto]. cbn [bind]. destruct (np_min ns) as [lo|e]; [|cbn; eauto]. cbn [bind].
  destruct (mapM _ ds) as [imgs|e] eqn:E; [exfalso|eauto]. apply In_zget in I as (i & _ & I). destruct (mapM_zget _ _ _ E I) as (img & _ & Q). cbn [fst snd] in Q. destruct (sort_for_imshow _ _ _ _ _ _); [|discriminate]. cbn [bind] in Q. rewrite HA in Q. replace (0 <? k)%Z with true in Q by lia. discriminate.
Qed.
(** and for a single diagnostic whose sound field could be shown, the error is a TypeError *)
Theorem C99_arrays_error_refuted p d P W k : d_power d <> [] -> sorted_field (d_pos d) (d_z d) (d_power d) = Ok (P, W) -> d_arrays d = Some k -> (0 < k)%Z -> soundfield [(p, d)] = Err TypeError.
Proof.
  intros NE E HA K. unfold FigModel.soundfield. cbn [mapM snd fst]. destruct (np_max_ok NE) as (hi & -> & _). destruct (np_min_ok NE) as (lo & -> & _). cbn [bind np_max np_min fold_right]. rewrite E. cbn [bind]. rewrite HA. replace (0 <? k)%Z with true by lia. reflexivity.
Qed.
End C99.

(** two channels with suffixes; a legend with an underscore; impulse responses; a wrong number of suffixes *)
Definition demo_td (sufs : option (list string)) : @time_diag Z := mkTD [[1; 2; 3]; [4; 5; 6]] [10; 20; 30] sufs "Samples" "" "Power".
Example C98_no_responses_example : @plot_ir Z [("p", ([], [[[1]]])); ("q", ([], []))] = Err UnboundLocalError /\ @plot_ir Z [("p", ([[[1]]], [[[1]]])); ("q", ([[]], []))] = Err ValueError.
Proof. split; reflexivity. Qed.
Example C98_example : fits (demo_td (Some ["l"; "r"])) /\ fits (demo_td None) /\
  function_of_time_plot "mic" [("mic", demo_td (Some ["l"; "r"]))] =
    Ok (mkTF [mkCurve "mic_l" [10; 20; 30] [1; 2; 3] true; mkCurve "mic_r" [10; 20; 30] [4; 5; 6] true] ["mic\_l"; "mic\_r"] "Samples" "" "Power - mic") /\
  function_of_time_plot "mic" [("mic", demo_td (Some ["l"]))] = Err AssertionError /\
  (exists fig, function_of_time_plot "mic" [("mic", demo_td None)] = Ok fig /\ f_legend fig = ["mic"]) /\
  (exists fig, function_of_time_plot "my_mic" [("my_mic", demo_td None)] = Ok fig /\ f_legend fig = ["my\_mic"; "my\_mic"]) /\
  @same_size Z [("h", ([[[1]; [2]]; [[3]; [4]]], [[[1]; [2]]; [[3]; [4]]]))] 2 /\
  plot_ir [("h", ([[[1]; [2]]; [[3]; [4]]], [[[1]; [2]]; [[3]; [4]]]))] = Ok [mkIR 0 0 "h" [1]; mkIR 0 1 "h" [2]; mkIR 0 0 "h" [3]; mkIR 0 1 "h" [4]] /\
  txt [("a", [[1; 2]; [3; 6]]%R)] = [("a", Some ((1 + (2 + (3 + (6 + 0)))) / 4)%R)].
Proof.
  split; [split; [intros ch [<-|[<-|[]]]; reflexivity|intros sufs H; injection H as <-; reflexivity]|]. split; [split; [intros ch [<-|[<-|[]]]; reflexivity|discriminate]|].
  split; [reflexivity|]. split; [reflexivity|]. split; [eexists; split; reflexivity|]. split; [eexists; split; reflexivity|]. split; [|split; reflexivity].
  split; [lia|]. split; [exists "h", [[[1]; [2]]; [[3]; [4]]], [[[1]; [2]]; [[3]; [4]]], [[1]; [2]]; cbn; auto|]. intros p raw out s [H|[]]. injection H as <- <- <-. cbn. intros [[<-|[<-|[]]]|[<-|[<-|[]]]]; reflexivity.
Qed.
Example C99_example : let d := mkSF [(0, 0); (100, 0); (0, 100); (100, 100)] (Some [7; 7; 7; 7]) [1; 2; 3; 4]%R None in
  d_power d <> [] /\ exists P W, sort_for_imshow 10 argsort_simple Z.eqb (d_pos d) (d_z d) (d_power d) = Ok (P, W) /\ W = [[3; 4]; [1; 2]]%R.
Proof. cbv zeta. split; [discriminate|]. eexists. eexists. split; vm_compute; reflexivity. Qed.

Print Assumptions C97_files.
Print Assumptions C97_kept_partial.
Print Assumptions C97_overwritten_refuted.
Print Assumptions C97_no_folder_partial.
Print Assumptions C97_no_folder_refuted.
Print Assumptions C97_unknown_method.
Print Assumptions C98_time.
Print Assumptions C98_refused.
Print Assumptions C98_no_diagnostics.
Print Assumptions C98_no_responses.
Print Assumptions C98_legend_partial.
Print Assumptions C98_legend_refuted.
Print Assumptions C98_ir_partial.
Print Assumptions C98_ir_refuted.
Print Assumptions C98_matshow.
Print Assumptions C98_text.
Print Assumptions C99_images_partial.
Print Assumptions C99_no_values.
Print Assumptions C99_arrays_refuted.
Print Assumptions C99_arrays_error_refuted.
