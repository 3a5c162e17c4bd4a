(** C120: what removing earlier tikz figures does. *)
Require Import Verif.PyBase Verif.PyLemmas Verif.PyStr Verif.PyStrLemmas Verif.FileModel Verif.FileProps Verif.FileNumProps Verif.TikzModel.
Local Open Scope string_scope.
Local Open Scope list_scope.
Local Open Scope Z_scope.

Lemma add_nothing s : (s ++ "")%string = s.
Proof. induction s as [|c s IH]; [reflexivity|]. cbn [append]. rewrite IH. reflexivity. Qed.
Lemma stem_and_suffix s : (path_stem s ++ path_suffix s)%string = s.
Proof.
  unfold path_stem, path_suffix, stem_suffix. destruct (rsplit "." s) as [[a b]|] eqn:Q; [|cbn [fst snd]; apply add_nothing]. destruct (_ || _)%bool; cbn [fst snd]; [apply add_nothing|].
  apply rsplit_some in Q as [Q _]. rewrite Q. reflexivity.
Qed.
Lemma without_same {B} (d : dict B) k : dget (without d k) k = None.
Proof. induction d as [|[n b] d IH]; cbn [without filter dget fst]; auto. destruct (String.eqb_spec n k) as [->|H]; cbn [negb]; [exact IH|]. cbn [dget]. destruct (String.eqb_spec k n); [congruence|exact IH]. Qed.
Lemma without_other {B} (d : dict B) k x : x <> k -> dget (without d k) x = dget d x.
Proof.
  intros H. induction d as [|[n b] d IH]; cbn [without filter dget fst]; auto. destruct (String.eqb_spec n k) as [->|Hn]; cbn [negb].
  - destruct (String.eqb_spec x k); [congruence|exact IH].
  - cbn [dget]. destruct (String.eqb x n); auto.
Qed.
Lemma without_head {B} k (b : B) d : ~ In k (dkeys d) -> without ((k, b) :: d) k = d.
Proof.
  intros N. cbn [without filter fst]. rewrite String.eqb_refl. cbn [negb]. induction d as [|[n c] d IH]; auto. cbn [filter fst]. destruct (String.eqb_spec n k) as [->|H]; cbn [negb]; [exfalso; apply N; left; reflexivity|].
  f_equal. apply IH. intros I. apply N. right. exact I.
Qed.

Section Cleaning.
Variable A : Type.
Variable may_touch : string -> string -> bool.
Variable may_rmdir : string -> bool.
Notation node := (node A).
Notation dir := (dict node).
Notation clean_file := (clean_file may_touch).
Notation clean_folder := (clean_folder may_touch may_rmdir).
Notation clean_all := (clean_all may_touch may_rmdir).
Notation delete_earlier_tikz_plot := (delete_earlier_tikz_plot may_touch may_rmdir).
Definition is_pdf (x : string) : Prop := path_suffix x = ".pdf".
Definition known_suffix (x : string) : Prop := is_pdf x \/ path_suffix x = ".tsv" \/ path_suffix x = ".tex".
(** the folder [f] with files [l] can be cleaned: distinct names, suffixes as expected, and no folder is in the way of a figure *)
Record tidy (d : dir) (l : dict A) : Prop := {
  td_names : NoDup (dkeys l); td_suffix : forall x, In x (dkeys l) -> known_suffix x;
  td_way : forall x l', In x (dkeys l) -> is_pdf x -> dget d x <> Some (Folder l') }.

Lemma pdf_dec x : {is_pdf x} + {~ is_pdf x}.
Proof. unfold is_pdf. apply string_dec. Qed.
Lemma folder_cleaned f l : forall (d : dir), dget d f = Some (Folder l) -> tidy d l -> (forall x, In x (dkeys l) -> may_touch f x = true) -> may_rmdir f = true ->
  exists d', clean_folder d f (dkeys l) = (d', None) /\ forall x, dget d' x = if String.eqb x f then None else match dget l x with Some a => if pdf_dec x then Some (File a) else dget d x | None => dget d x end.
Proof.
  induction l as [|[p a] l IH]; intros d H T M R.
  - exists (without d f). cbn [dkeys map TikzModel.clean_folder]. rewrite R, H. split; [reflexivity|]. intros x. cbn [dget]. destruct (String.eqb_spec x f) as [->|N]; [apply without_same|apply without_other; exact N].
  - destruct T as [T1 T2 T3]. cbn [dkeys map fst] in *. inversion T1 as [|? ? N1 N2]; subst. cbn [TikzModel.clean_folder]. unfold TikzModel.clean_file at 1. rewrite H. cbn [dget]. rewrite String.eqb_refl, (M p (or_introl eq_refl)), stem_and_suffix, without_head by exact N1.
    destruct (pdf_dec p) as [Hp|Hp].
    + rewrite Hp. cbn [String.eqb]. change (String.eqb ".pdf" ".pdf") with true. cbv iota.
      assert (W : forall l', dget d p <> Some (Folder l')) by (intros l'; apply T3; [left; reflexivity|exact Hp]). assert (Nf : p <> f) by (intros ->; exact (W _ H)).
      assert (Same : (match dget d p with Some (Folder _) => (d, Some IsDirectory) | _ => (dset (dset d f (Folder l)) p (File a), None) end) = (dset (dset d f (Folder l)) p (File a), None)) by (destruct (dget d p) as [[y|y]|]; auto; exfalso; exact (W y eq_refl)).
      rewrite Same. set (d1 := dset (dset d f (Folder l)) p (File a)).
      assert (G : forall x, dget d1 x = if String.eqb x p then Some (File a) else if String.eqb x f then Some (Folder l) else dget d x).
      { intros x. unfold d1. destruct (String.eqb_spec x p) as [->|Hx]; [apply dget_dset_same|]. rewrite dget_dset_other by exact Hx. destruct (String.eqb_spec x f) as [->|Hf]; [apply dget_dset_same|apply dget_dset_other; exact Hf]. }
      destruct (IH d1) as (d' & E & K).
      * rewrite G. destruct (String.eqb_spec f p); [congruence|]. rewrite String.eqb_refl. reflexivity.
      * constructor; [exact N2|intros x Ix; apply T2; right; exact Ix|]. intros x l' Ix Px. rewrite G. destruct (String.eqb_spec x p); [discriminate|]. destruct (String.eqb_spec x f) as [->|_]; [exfalso; exact (T3 _ _ (or_intror Ix) Px H)|apply T3; [right; exact Ix|exact Px]].
      * intros x Ix. apply M. right. exact Ix.
      * exact R.
      * exists d'. split; [exact E|]. intros x. rewrite K, G. cbn [dget]. destruct (String.eqb_spec x f) as [->|Hf]; [reflexivity|]. destruct (String.eqb_spec x p) as [->|Hx]; [|reflexivity].
        rewrite (proj2 (dget_None l p) N1). destruct (pdf_dec p); [reflexivity|contradiction].
    + assert (Q : String.eqb (path_suffix p) ".pdf" = false) by (apply String.eqb_neq; exact Hp). rewrite Q.
      assert (Q2 : (String.eqb (path_suffix p) ".tsv" || String.eqb (path_suffix p) ".tex")%bool = true) by (destruct (T2 p (or_introl eq_refl)) as [C|[C|C]]; [contradiction|rewrite C; reflexivity|rewrite C; reflexivity]). rewrite Q2.
      set (d1 := dset d f (Folder l)). assert (G : forall x, dget d1 x = if String.eqb x f then Some (Folder l) else dget d x).
      { intros x. unfold d1. destruct (String.eqb_spec x f) as [->|Hf]; [apply dget_dset_same|apply dget_dset_other; exact Hf]. }
      destruct (IH d1) as (d' & E & K).
      * rewrite G, String.eqb_refl. reflexivity.
      * constructor; [exact N2|intros x Ix; apply T2; right; exact Ix|]. intros x l' Ix Px. rewrite G. destruct (String.eqb_spec x f) as [->|_]; [exfalso; exact (T3 _ _ (or_intror Ix) Px H)|apply T3; [right; exact Ix|exact Px]].
      * intros x Ix. apply M. right. exact Ix.
      * exact R.
      * exists d'. split; [exact E|]. intros x. rewrite K, G. cbn [dget]. destruct (String.eqb_spec x f) as [->|Hf]; [reflexivity|]. destruct (String.eqb_spec x p) as [->|Hx]; [|reflexivity].
        rewrite (proj2 (dget_None l p) N1). destruct (pdf_dec p); [contradiction|reflexivity].
Qed.

(** the figure named x in the folder f, and in the last of the folders fs that has one *)
Definition here (d : dir) (f x : string) : option A := match dget d f with Some (Folder l) => if pdf_dec x then dget l x else None | _ => None end.
Fixpoint found (d : dir) (fs : list string) (x : string) : option A := match fs with [] => None | f :: r => match found d r x with Some a => Some a | None => here d f x end end.
Definition is_folder (d : dir) (x : string) : bool := match dget d x with Some (Folder _) => true | _ => false end.
Definition ready (d : dir) (fs : list string) : Prop := forall f l, In f fs -> dget d f = Some (Folder l) -> tidy d l.
Definition allowed (d : dir) (f : string) : Prop := forall l, dget d f = Some (Folder l) -> may_rmdir f = true /\ forall x, In x (dkeys l) -> may_touch f x = true.

Lemma in_keys {B} (l : dict B) x a : dget l x = Some a -> In x (dkeys l).
Proof. intros H. apply dget_In in H. apply (in_map fst) in H. exact H. Qed.
Lemma after_folder (d d1 : dir) f l : dget d f = Some (Folder l) -> tidy d l ->
  (forall x, dget d1 x = if String.eqb x f then None else match dget l x with Some a => if pdf_dec x then Some (File a) else dget d x | None => dget d x end) ->
  forall g l', g <> f -> (dget d1 g = Some (Folder l') <-> dget d g = Some (Folder l')).
Proof.
  intros H T K g l' N. rewrite K. apply String.eqb_neq in N. rewrite N. destruct (dget l g) as [a|] eqn:Q; [|tauto]. destruct (pdf_dec g) as [P|P]; [|tauto].
  split; [discriminate|]. intros C. exfalso. exact (td_way _ _ T _ _ (in_keys _ _ _ Q) P C).
Qed.
Lemma all_cleaned fs : NoDup fs -> forall d, ready d fs -> (forall f, In f fs -> allowed d f) ->
  exists d', clean_all d fs = (d', None) /\ forall x, dget d' x = match found d fs x with Some a => Some (File a) | None => if smem x fs && is_folder d x then None else dget d x end.
Proof.
  induction 1 as [|f r Nf Nr IH]; intros d Hr Ha.
  - exists d. cbn. auto.
  - cbn [TikzModel.clean_all]. destruct (dget d f) as [[y|l]|] eqn:Q.
    + destruct (IH d) as (d' & E & K); [intros g l Ig; apply Hr; right; exact Ig|intros g Ig; apply Ha; right; exact Ig|]. exists d'. split; [exact E|]. intros x. rewrite K. cbn [found]. unfold here. rewrite Q. destruct (found d r x); [reflexivity|].
      cbn [smem existsb]. destruct (String.eqb_spec x f) as [->|N]; [|reflexivity]. unfold is_folder. rewrite Q, !andb_false_r. reflexivity.
    + pose proof (Hr f l (or_introl eq_refl) Q) as T. destruct (Ha f (or_introl eq_refl) l Q) as [R M]. destruct (folder_cleaned f l d Q T M R) as (d1 & E1 & K1). rewrite E1. pose proof (after_folder d d1 f l Q T K1) as F.
      assert (Nr' : forall g, In g r -> g <> f) by (intros g Ig ->; exact (Nf Ig)).
      assert (Hh : forall g x, g <> f -> here d1 g x = here d g x).
      { intros g x Ng. unfold here. destruct (dget d1 g) as [[u|u]|] eqn:Q1; destruct (dget d g) as [[v|v]|] eqn:Q2; try reflexivity;
          try (apply (proj2 (F g v Ng)) in Q2; assert (u = v) by congruence; subst; reflexivity); try (apply (proj2 (F g v Ng)) in Q2; congruence); try (apply (proj1 (F g u Ng)) in Q1; congruence). }
      assert (Hf : forall l x, (forall g, In g l -> g <> f) -> found d1 l x = found d l x).
      { clear - Hh. induction l as [|g l IH]; intros x N; [reflexivity|]. cbn [found]. rewrite IH by (intros h Ih; apply N; right; exact Ih). rewrite Hh by (apply N; left; reflexivity). reflexivity. }
      destruct (IH d1) as (d' & E & K).
      * intros g l' Ig G. apply (proj1 (F g l' (Nr' g Ig))) in G. pose proof (Hr g l' (or_intror Ig) G) as [T1 T2 T3]. constructor; [exact T1|exact T2|]. intros x l2 Ix Px C. destruct (String.eqb_spec x f) as [->|Nx].
        -- rewrite K1, String.eqb_refl in C. discriminate.
        -- apply (proj1 (F x l2 Nx)) in C. exact (T3 _ _ Ix Px C).
      * intros g Ig l' G. apply (proj1 (F g l' (Nr' g Ig))) in G. exact (Ha g (or_intror Ig) l' G).
      * exists d'. split; [exact E|]. intros x. rewrite K, (Hf r x Nr'). cbn [found]. destruct (found d r x) as [a|]; [reflexivity|]. unfold here. rewrite Q. cbn [smem existsb]. fold (smem x r). destruct (String.eqb_spec x f) as [->|Nx].
        -- cbn [orb]. unfold is_folder at 2. rewrite Q, K1, String.eqb_refl. cbn [andb]. assert (D : (if pdf_dec f then dget l f else None) = None).
           { destruct (pdf_dec f) as [P|P]; [|reflexivity]. destruct (dget l f) as [a|] eqn:Ql; [|reflexivity]. exfalso. exact (td_way _ _ T _ _ (in_keys _ _ _ Ql) P Q). }
           rewrite D. destruct (smem f r && is_folder d1 f)%bool; reflexivity.
        -- cbn [orb]. unfold is_folder. rewrite K1. apply String.eqb_neq in Nx. rewrite Nx. destruct (dget l x) as [a|] eqn:Ql; [destruct (pdf_dec x); [rewrite andb_false_r; reflexivity|reflexivity]|destruct (pdf_dec x); reflexivity].
    + destruct (IH d) as (d' & E & K); [intros g l Ig; apply Hr; right; exact Ig|intros g Ig; apply Ha; right; exact Ig|]. exists d'. split; [exact E|]. intros x. rewrite K. cbn [found]. unfold here. rewrite Q. destruct (found d r x); [reflexivity|].
      cbn [smem existsb]. destruct (String.eqb_spec x f) as [->|N]; [|reflexivity]. unfold is_folder. rewrite Q, !andb_false_r. reflexivity.
Qed.
Lemma found_some d fs x a : found d fs x = Some a -> is_pdf x /\ exists f l, In f fs /\ dget d f = Some (Folder l) /\ dget l x = Some a.
Proof.
  induction fs as [|f r IH]; cbn [found]; [discriminate|]. destruct (found d r x) as [b|].
  - intros H. destruct (IH H) as (P & g & l & I & G & L). split; [exact P|]. exists g, l. split; [right; exact I|]. auto.
  - intros H. unfold here in H. destruct (dget d f) as [[y|l]|] eqn:Q; try discriminate. destruct (pdf_dec x); [|discriminate]. split; [assumption|]. exists f, l. split; [left; reflexivity|]. auto.
Qed.
Lemma found_none d fs x f l : found d fs x = None -> In f fs -> dget d f = Some (Folder l) -> is_pdf x -> dget l x = None.
Proof.
  induction fs as [|g r IH]; cbn [found]; [intros _ []|]. destruct (found d r x) as [b|]; [discriminate|]. intros H [->|I] G P; [|apply IH; auto]. unfold here in H. rewrite G in H. destruct (pdf_dec x); [exact H|contradiction].
Qed.

(* ------------------------------------------------------------------ C120 *)
(** an entry of the folder with the same name as the new figure's up to the number at its end, and a lower number *)
Definition earlier (stem : string) (idx : Z) (f : string) : Prop := exists k, file_no stem f k /\ k < idx.
Definition earlier_folder (d : dir) (stem : string) (idx : Z) (f : string) (l : dict A) : Prop := earlier stem idx f /\ dget d f = Some (Folder l).
(** the new figure is [stem] and its number; no entry has a higher number *)
Record latest (d : dir) (stem : string) (idx : Z) : Prop := {
  la_stem : no_digit_end stem; la_idx : 0 <= idx; la_names : NoDup (dkeys d); la_last : forall f k, In f (dkeys d) -> file_no stem f k -> k <= idx }.
(** C120.  The folders of earlier figures are removed; each of their pdf files is now in the figure folder, under its name (of
    several with the same name, one of them); nothing else changes *)
Theorem C120_cleaned d stem idx : latest d stem idx -> (forall f l, earlier_folder d stem idx f l -> tidy d l /\ may_rmdir f = true /\ forall x, In x (dkeys l) -> may_touch f x = true) ->
  exists d', delete_earlier_tikz_plot d (stem ++ py_str idx) = (d', None) /\
    (forall f l, earlier_folder d stem idx f l -> dget d' f = None) /\
    (forall f l x a, earlier_folder d stem idx f l -> is_pdf x -> dget l x = Some a -> exists f2 l2 a2, earlier_folder d stem idx f2 l2 /\ dget l2 x = Some a2 /\ dget d' x = Some (File a2)) /\
    (forall x, (forall l, ~ earlier_folder d stem idx x l) -> (is_pdf x -> forall f l, earlier_folder d stem idx f l -> dget l x = None) -> dget d' x = dget d x).
Proof.
  intros [L1 L2 L3 L4] T. unfold TikzModel.delete_earlier_tikz_plot. destruct (py_str_nonneg L2) as (Dg & Ne & Dv). rewrite (@C80_index stem _ L1 Dg). apply String.eqb_neq in Ne. rewrite Ne, Dv.
  destruct (@C81_earlier (dkeys d) (stem ++ py_str idx)%string idx true true stem) as (pick & E & P); [reflexivity|intros f k _; apply L4|]. rewrite E.
  assert (Ef : forall f l, In f (filter pick (dkeys d)) -> dget d f = Some (Folder l) -> earlier_folder d stem idx f l) by (intros f l I G; apply filter_In in I as [_ I]; split; [apply P; exact I|exact G]).
  assert (Fe : forall f l, earlier_folder d stem idx f l -> In f (filter pick (dkeys d)) /\ dget d f = Some (Folder l)) by (intros f l [I G]; split; [|exact G]; apply filter_In; split; [exact (in_keys _ _ _ G)|apply P; exact I]).
  destruct (all_cleaned (filter pick (dkeys d))) with (d := d) as (d' & C & K).
  - apply NoDup_filter. exact L3.
  - intros f l I G. exact (proj1 (T f l (Ef f l I G))).
  - intros f I l G. exact (proj2 (T f l (Ef f l I G))).
  - exists d'. split; [exact C|]. split; [|split].
    + intros f l F. destruct (Fe f l F) as [I G]. rewrite K. destruct (found d (filter pick (dkeys d)) f) as [a|] eqn:Q.
      * exfalso. apply found_some in Q as (Px & g & l2 & I2 & G2 & H2). destruct (T g l2 (Ef g l2 I2 G2)) as [[_ _ W] _]. exact (W f l (in_keys _ _ _ H2) Px G).
      * rewrite (proj2 (smem_spec _ _) I). unfold is_folder. rewrite G. reflexivity.
    + intros f l x a F Px H. destruct (Fe f l F) as [I G]. rewrite K. destruct (found d (filter pick (dkeys d)) x) as [b|] eqn:Q.
      * apply found_some in Q as (_ & g & l2 & I2 & G2 & H2). exists g, l2, b. split; [exact (Ef g l2 I2 G2)|]. auto.
      * rewrite (found_none _ _ _ _ _ Q I G Px) in H. discriminate.
    + intros x N1 N2. rewrite K. destruct (found d (filter pick (dkeys d)) x) as [b|] eqn:Q.
      * apply found_some in Q as (Px & g & l2 & I2 & G2 & H2). rewrite (N2 Px g l2 (Ef g l2 I2 G2)) in H2. discriminate.
      * destruct (smem x (filter pick (dkeys d))) eqn:S; [|reflexivity]. unfold is_folder. destruct (dget d x) as [[y|l]|] eqn:G; [reflexivity| |reflexivity]. apply smem_spec in S. exfalso. exact (N1 l (Ef x l S G)).
Qed.

(** a file that may not be touched: its folder is not empty in the end *)
Lemma folder_refused f x0 a0 todo : forall (d : dir) l, dget d f = Some (Folder l) -> dget l x0 = Some a0 -> may_touch f x0 = false -> may_rmdir f = true ->
  (forall x, In x (dkeys l) -> known_suffix x) -> (forall x l', In x (dkeys l) -> is_pdf x -> dget d x <> Some (Folder l')) -> snd (clean_folder d f todo) = Some NotEmpty.
Proof.
  induction todo as [|p todo IH]; intros d l H H0 M R S W; cbn [TikzModel.clean_folder].
  - rewrite R, H. destruct l as [|y l]; [discriminate H0|reflexivity].
  - unfold TikzModel.clean_file at 1. rewrite H, stem_and_suffix. destruct (dget l p) as [a|] eqn:Q; [|exact (IH d l H H0 M R S W)]. pose proof (in_keys _ _ _ Q) as Ip.
    assert (Sub : forall x, In x (dkeys (without l p)) -> In x (dkeys l)).
    { intros x I. unfold dkeys in *. apply in_map_iff in I as (kv & <- & I). apply filter_In in I as [I _]. apply in_map. exact I. }
    destruct (pdf_dec p) as [Hp|Hp].
    + rewrite Hp. change (String.eqb ".pdf" ".pdf") with true. cbv iota. destruct (may_touch f p) eqn:Mp; [|exact (IH d l H H0 M R S W)]. assert (Np : x0 <> p) by congruence.
      assert (Nf : p <> f) by (intros ->; exact (W f l Ip Hp H)).
      assert (Same : (match dget d p with Some (Folder _) => (d, Some IsDirectory) | _ => (dset (dset d f (Folder (without l p))) p (File a), None) end) = (dset (dset d f (Folder (without l p))) p (File a), None)) by (destruct (dget d p) as [[y|y]|] eqn:Qp; auto; exfalso; exact (W p y Ip Hp Qp)).
      rewrite Same. apply (IH _ (without l p)).
      * rewrite dget_dset_other by congruence. apply dget_dset_same.
      * rewrite without_other by exact Np. exact H0.
      * exact M.
      * exact R.
      * intros x Ix. apply S. apply Sub. exact Ix.
      * intros x l' Ix Px. destruct (string_dec x p) as [->|Nx]; [rewrite dget_dset_same; discriminate|]. rewrite dget_dset_other by exact Nx. destruct (string_dec x f) as [->|Nx']; [exfalso; exact (W f l (Sub _ Ix) Px H)|]. rewrite dget_dset_other by exact Nx'. apply W; [apply Sub; exact Ix|exact Px].
    + assert (Q1 : String.eqb (path_suffix p) ".pdf" = false) by (apply String.eqb_neq; exact Hp). rewrite Q1.
      assert (Q2 : (String.eqb (path_suffix p) ".tsv" || String.eqb (path_suffix p) ".tex")%bool = true) by (destruct (S p Ip) as [C|[C|C]]; [contradiction|rewrite C; reflexivity|rewrite C; reflexivity]). rewrite Q2.
      destruct (may_touch f p) eqn:Mp; [|exact (IH d l H H0 M R S W)]. assert (Np : x0 <> p) by congruence. apply (IH _ (without l p)).
      * apply dget_dset_same.
      * rewrite without_other by exact Np. exact H0.
      * exact M.
      * exact R.
      * intros x Ix. apply S. apply Sub. exact Ix.
      * intros x l' Ix Px. destruct (string_dec x f) as [->|Nx']; [exfalso; exact (W f l (Sub _ Ix) Px H)|]. rewrite dget_dset_other by exact Nx'. apply W; [apply Sub; exact Ix|exact Px].
Qed.
(** a file of another kind *)
Lemma folder_other f x0 a0 todo : forall (d : dir) l, dget d f = Some (Folder l) -> In x0 todo -> dget l x0 = Some a0 -> ~ known_suffix x0 ->
  (forall x l', In x (dkeys l) -> is_pdf x -> dget d x <> Some (Folder l')) -> snd (clean_folder d f todo) = Some Assertion.
Proof.
  induction todo as [|p todo IH]; intros d l H I H0 S W; [destruct I|]. cbn [TikzModel.clean_folder]. unfold TikzModel.clean_file at 1. rewrite H, stem_and_suffix.
  assert (Sub : forall p x, In x (dkeys (without l p)) -> In x (dkeys l)).
  { intros q x J. unfold dkeys in *. apply in_map_iff in J as (kv & <- & J). apply filter_In in J as [J _]. apply in_map. exact J. }
  destruct (string_dec p x0) as [->|Np].
  - rewrite H0. unfold known_suffix, is_pdf in S. assert (Q1 : String.eqb (path_suffix x0) ".pdf" = false) by (apply String.eqb_neq; tauto). rewrite Q1.
    assert (Q2 : String.eqb (path_suffix x0) ".tsv" = false) by (apply String.eqb_neq; tauto). assert (Q3 : String.eqb (path_suffix x0) ".tex" = false) by (apply String.eqb_neq; tauto). rewrite Q2, Q3. reflexivity.
  - destruct I as [I|I]; [congruence|]. destruct (dget l p) as [a|] eqn:Q; [|exact (IH d l H I H0 S W)]. pose proof (in_keys _ _ _ Q) as Ip. destruct (pdf_dec p) as [Hp|Hp].
    + rewrite Hp. change (String.eqb ".pdf" ".pdf") with true. cbv iota. destruct (may_touch f p) eqn:Mp; [|exact (IH d l H I H0 S W)].
      assert (Nf : p <> f) by (intros ->; exact (W f l Ip Hp H)).
      assert (Same : (match dget d p with Some (Folder _) => (d, Some IsDirectory) | _ => (dset (dset d f (Folder (without l p))) p (File a), None) end) = (dset (dset d f (Folder (without l p))) p (File a), None)) by (destruct (dget d p) as [[y|y]|] eqn:Qp; auto; exfalso; exact (W p y Ip Hp Qp)).
      rewrite Same. apply (IH _ (without l p)).
      * rewrite dget_dset_other by congruence. apply dget_dset_same.
      * exact I.
      * rewrite without_other by congruence. exact H0.
      * exact S.
      * intros x l' Ix Px. destruct (string_dec x p) as [->|Nx]; [rewrite dget_dset_same; discriminate|]. rewrite dget_dset_other by exact Nx. destruct (string_dec x f) as [->|Nx']; [exfalso; exact (W f l (Sub _ _ Ix) Px H)|]. rewrite dget_dset_other by exact Nx'. apply W; [exact (Sub _ _ Ix)|exact Px].
    + assert (Q1 : String.eqb (path_suffix p) ".pdf" = false) by (apply String.eqb_neq; exact Hp). rewrite Q1. destruct (_ || _)%bool; [|reflexivity]. destruct (may_touch f p); [|exact (IH d l H I H0 S W)]. apply (IH _ (without l p)).
      * apply dget_dset_same.
      * exact I.
      * rewrite without_other by congruence. exact H0.
      * exact S.
      * intros x l' Ix Px. destruct (string_dec x f) as [->|Nx']; [exfalso; exact (W f l (Sub _ _ Ix) Px H)|]. rewrite dget_dset_other by exact Nx'. apply W; [exact (Sub _ _ Ix)|exact Px].
Qed.
(** One earlier folder with files [l], nothing else with a lower number.  Permission is denied for one of its files: although the code
    passes over the PermissionError, it ends with an OSError, as the folder is then not empty *)
Theorem C120_denied d stem idx f l x : latest d stem idx -> earlier_folder d stem idx f l -> (forall g, earlier stem idx g -> In g (dkeys d) -> g = f) -> tidy d l -> may_rmdir f = true ->
  In x (dkeys l) -> may_touch f x = false -> snd (delete_earlier_tikz_plot d (stem ++ py_str idx)) = Some NotEmpty.
Proof.
  intros [L1 L2 L3 L4] [F1 F2] U [T1 T2 T3] R Ix M. unfold TikzModel.delete_earlier_tikz_plot. destruct (py_str_nonneg L2) as (Dg & Ne & Dv). rewrite (@C80_index stem _ L1 Dg). apply String.eqb_neq in Ne. rewrite Ne, Dv.
  destruct (@C81_earlier (dkeys d) (stem ++ py_str idx)%string idx true true stem) as (pick & E & P); [reflexivity|intros g k _; apply L4|]. rewrite E.
  assert (I : In f (filter pick (dkeys d))) by (apply filter_In; split; [exact (in_keys _ _ _ F2)|apply P; exact F1]). assert (O : forall g, In g (filter pick (dkeys d)) -> g = f) by (intros g G; apply filter_In in G as [G1 G2]; apply U; [apply P; exact G2|exact G1]).
  destruct (filter pick (dkeys d)) as [|g r]; [destruct I|]. rewrite (O g (or_introl eq_refl)). cbn [TikzModel.clean_all]. rewrite F2.
  destruct (dget l x) as [a|] eqn:Q; [|exfalso; apply dget_None in Q; exact (Q Ix)]. pose proof (folder_refused f x a (dkeys l) d l F2 Q M R T2 T3) as K. destruct (clean_folder d f (dkeys l)) as [d1 [e|]]; [exact K|discriminate K].
Qed.
(** ... and an AssertionError if it has a file of another kind *)
Theorem C120_other_file d stem idx f l x : latest d stem idx -> earlier_folder d stem idx f l -> (forall g, earlier stem idx g -> In g (dkeys d) -> g = f) ->
  (forall y l', In y (dkeys l) -> is_pdf y -> dget d y <> Some (Folder l')) -> In x (dkeys l) -> ~ known_suffix x -> snd (delete_earlier_tikz_plot d (stem ++ py_str idx)) = Some Assertion.
Proof.
  intros [L1 L2 L3 L4] [F1 F2] U W Ix S. unfold TikzModel.delete_earlier_tikz_plot. destruct (py_str_nonneg L2) as (Dg & Ne & Dv). rewrite (@C80_index stem _ L1 Dg). apply String.eqb_neq in Ne. rewrite Ne, Dv.
  destruct (@C81_earlier (dkeys d) (stem ++ py_str idx)%string idx true true stem) as (pick & E & P); [reflexivity|intros g k _; apply L4|]. rewrite E.
  assert (I : In f (filter pick (dkeys d))) by (apply filter_In; split; [exact (in_keys _ _ _ F2)|apply P; exact F1]). assert (O : forall g, In g (filter pick (dkeys d)) -> g = f) by (intros g G; apply filter_In in G as [G1 G2]; apply U; [apply P; exact G2|exact G1]).
  destruct (filter pick (dkeys d)) as [|g r]; [destruct I|]. rewrite (O g (or_introl eq_refl)). cbn [TikzModel.clean_all]. rewrite F2.
  destruct (dget l x) as [a|] eqn:Q; [|exfalso; apply dget_None in Q; exact (Q Ix)]. pose proof (folder_other f x a (dkeys l) d l F2 Ix Q S W) as K. destruct (clean_folder d f (dkeys l)) as [d1 [e|]]; [exact K|discriminate K].
Qed.
(** names that do not end with a number: nothing happens; entries with a higher number: a ValueError before anything is changed *)
Theorem C120_nothing (d : dir) name : no_digit_end name -> delete_earlier_tikz_plot d name = (d, None).
Proof. intros N. unfold TikzModel.delete_earlier_tikz_plot. pose proof (@C80_index name "" N eq_refl) as K. rewrite add_nothing in K. rewrite K. reflexivity. Qed.
Theorem C120_later (d : dir) stem idx f k : no_digit_end stem -> 0 <= idx -> In f (dkeys d) -> file_no stem f k -> idx < k -> delete_earlier_tikz_plot d (stem ++ py_str idx) = (d, Some Value).
Proof.
  intros L1 L2 I F K. unfold TikzModel.delete_earlier_tikz_plot. destruct (py_str_nonneg L2) as (Dg & Ne & Dv). rewrite (@C80_index stem _ L1 Dg). apply String.eqb_neq in Ne. rewrite Ne, Dv.
  rewrite (@C81_later (dkeys d) (stem ++ py_str idx)%string idx true stem f k eq_refl I F K). reflexivity.
Qed.
End Cleaning.

(* ------------------------------------------------------------------ Examples *)
Section Examples.
Let figs : dict (node Z) :=
  [("fig_3", Folder [("fig_3.tex", 1); ("fig_3-000.tsv", 2); ("fig_3.pdf", 3)]); ("other_4", Folder [("other_4.pdf", 4)]); ("fig_1.pdf", File 5);
   ("fig_12", Folder [("fig_12.tex", 6); ("fig_12.pdf", 7)]); ("fig_7", Folder [("fig_7.tex", 8); ("fig_7.pdf", 9)]); ("notes.txt", File 10)].
Let odd_figs : dict (node Z) := [("fig_3", Folder [("fig_3.tex", 1); ("notes.txt", 2); ("fig_3.pdf", 3)]); ("fig_12", Folder [("fig_12.pdf", 7)])].
Let yes1 (_ : string) := true.
Let yes2 (_ _ : string) := true.
Let no_pdf (_ x : string) := negb (String.eqb x "fig_3.pdf").
Lemma fig_stem : no_digit_end "fig_".
Proof. intros a c E. do 4 (destruct a as [|? a]; [discriminate E || (injection E as <-; reflexivity)|cbn [append] in E; injection E as _ E]). destruct a; discriminate. Qed.
(** the numbers of the entries *)
Lemma fig_number f k : file_no "fig_" f k -> exists ds, path_stem f = ("fig_" ++ ds)%string /\ k = digits_val 0 ds.
Proof. intros (ds & _ & _ & <- & E). exists ds. auto. Qed.
Lemma figs_latest : latest Z figs "fig_" 12.
Proof.
  constructor; [exact fig_stem|lia|repeat constructor; simpl; intuition discriminate|]. intros f k I F. destruct (fig_number f k F) as (ds & E & ->).
  cbn [figs dkeys map fst In] in I. destruct I as [<-|[<-|[<-|[<-|[<-|[<-|[]]]]]]]; vm_compute in E; try discriminate E; injection E as <-; vm_compute; discriminate.
Qed.
Lemma odd_latest : latest Z odd_figs "fig_" 12.
Proof.
  constructor; [exact fig_stem|lia|repeat constructor; simpl; intuition discriminate|]. intros f k I F. destruct (fig_number f k F) as (ds & E & ->).
  cbn [odd_figs dkeys map fst In] in I. destruct I as [<-|[<-|[]]]; vm_compute in E; injection E as <-; vm_compute; discriminate.
Qed.
Lemma tidy_of (d : dict (node Z)) (l : dict Z) : NoDup (dkeys l) -> forallb (fun x => (String.eqb (path_suffix x) ".pdf" || String.eqb (path_suffix x) ".tsv" || String.eqb (path_suffix x) ".tex") && negb (is_folder Z d x))%bool (dkeys l) = true -> tidy Z d l.
Proof.
  intros N F. rewrite forallb_forall in F. constructor; [exact N| |].
  - intros x I. specialize (F x I). apply andb_true_iff in F as [F _]. apply orb_true_iff in F as [F|F]; [apply orb_true_iff in F as [F|F]|]; apply String.eqb_eq in F; unfold known_suffix, is_pdf; tauto.
  - intros x l' I _ C. specialize (F x I). apply andb_true_iff in F as [_ F]. unfold is_folder in F. rewrite C in F. discriminate.
Qed.
Lemma figs_earlier f l : earlier_folder Z figs "fig_" 12 f l -> (f, l) = ("fig_3", [("fig_3.tex", 1); ("fig_3-000.tsv", 2); ("fig_3.pdf", 3)]) \/ (f, l) = ("fig_7", [("fig_7.tex", 8); ("fig_7.pdf", 9)]).
Proof.
  intros [(k & F & K) G]. destruct (fig_number f k F) as (ds & E & ->). apply dget_In in G. cbn [figs In] in G.
  destruct G as [G|[G|[G|[G|[G|[G|[]]]]]]]; try discriminate G; injection G as <- <-; vm_compute in E; try discriminate E; injection E as <-; [left; reflexivity|vm_compute in K; discriminate K|right; reflexivity].
Qed.
Lemma no3 : earlier "fig_" 12 "fig_3".
Proof. exists 3. split; [|lia]. exists "3". repeat split; discriminate. Qed.
Example C120_cleaned_meets : latest Z figs "fig_" 12 /\ (forall f l, earlier_folder Z figs "fig_" 12 f l -> tidy Z figs l /\ yes1 f = true /\ forall x, In x (dkeys l) -> yes2 f x = true) /\
  earlier_folder Z figs "fig_" 12 "fig_3" [("fig_3.tex", 1); ("fig_3-000.tsv", 2); ("fig_3.pdf", 3)] /\
  fst (delete_earlier_tikz_plot yes2 yes1 figs "fig_12") = [("other_4", Folder [("other_4.pdf", 4)]); ("fig_1.pdf", File 5); ("fig_12", Folder [("fig_12.tex", 6); ("fig_12.pdf", 7)]); ("notes.txt", File 10); ("fig_3.pdf", File 3); ("fig_7.pdf", File 9)].
Proof.
  split; [exact figs_latest|]. split; [|split; [split; [exact no3|reflexivity]|vm_compute; reflexivity]]. intros f l F.
  destruct (figs_earlier f l F) as [E|E]; injection E as -> ->; (split; [apply tidy_of; [repeat constructor; simpl; intuition discriminate|vm_compute; reflexivity]|split; [reflexivity|intros; reflexivity]]).
Qed.
Let tidy_figs : dict (node Z) := [("fig_3", Folder [("fig_3.tex", 1); ("fig_3.pdf", 3)]); ("fig_12", Folder [("fig_12.pdf", 7)])].
Lemma tidy_latest : latest Z tidy_figs "fig_" 12.
Proof.
  constructor; [exact fig_stem|lia|repeat constructor; simpl; intuition discriminate|]. intros f k I F. destruct (fig_number f k F) as (ds & E & ->).
  cbn [tidy_figs dkeys map fst In] in I. destruct I as [<-|[<-|[]]]; vm_compute in E; injection E as <-; vm_compute; discriminate.
Qed.
Lemma only3 g : earlier "fig_" 12 g -> In g ["fig_3"; "fig_12"] -> g = "fig_3".
Proof. intros (k & F & K) [<-|[<-|[]]]; [reflexivity|]. destruct (fig_number _ _ F) as (ds & E & ->). vm_compute in E. injection E as <-. vm_compute in K. discriminate K. Qed.
Example C120_denied_meets : latest Z tidy_figs "fig_" 12 /\ earlier_folder Z tidy_figs "fig_" 12 "fig_3" [("fig_3.tex", 1); ("fig_3.pdf", 3)] /\ (forall g, earlier "fig_" 12 g -> In g (dkeys tidy_figs) -> g = "fig_3") /\
  tidy Z tidy_figs [("fig_3.tex", 1); ("fig_3.pdf", 3)] /\ yes1 "fig_3" = true /\ no_pdf "fig_3" "fig_3.pdf" = false /\ delete_earlier_tikz_plot no_pdf yes1 tidy_figs "fig_12" = ([("fig_3", Folder [("fig_3.pdf", 3)]); ("fig_12", Folder [("fig_12.pdf", 7)])], Some NotEmpty).
Proof.
  split; [exact tidy_latest|]. split; [split; [exact no3|reflexivity]|]. split; [exact only3|]. split; [apply tidy_of; [repeat constructor; simpl; intuition discriminate|vm_compute; reflexivity]|]. repeat split; vm_compute; reflexivity.
Qed.
Example C120_other_file_meets : latest Z odd_figs "fig_" 12 /\ earlier_folder Z odd_figs "fig_" 12 "fig_3" [("fig_3.tex", 1); ("notes.txt", 2); ("fig_3.pdf", 3)] /\ (forall g, earlier "fig_" 12 g -> In g (dkeys odd_figs) -> g = "fig_3") /\
  (forall y l', In y ["fig_3.tex"; "notes.txt"; "fig_3.pdf"] -> is_pdf y -> dget odd_figs y <> Some (Folder l')) /\ ~ known_suffix "notes.txt".
Proof.
  split; [exact odd_latest|]. split; [split; [exact no3|reflexivity]|]. split; [exact only3|]. split; [intros y l' [<-|[<-|[<-|[]]]] _; vm_compute; discriminate|]. intros [H|[H|H]]; vm_compute in H; discriminate H.
Qed.
Example C120_nothing_meets : no_digit_end "fig_". Proof. exact fig_stem. Qed.
Example C120_later_meets : In "fig_12" (dkeys figs) /\ file_no "fig_" "fig_12" 12 /\ delete_earlier_tikz_plot yes2 yes1 figs "fig_10" = (figs, Some Value).
Proof. split; [simpl; auto|]. split; [|vm_compute; reflexivity]. exists "12". repeat split; discriminate. Qed.
End Examples.
Print Assumptions C120_cleaned.
Print Assumptions C120_denied.
Print Assumptions C120_other_file.
Print Assumptions C120_nothing.
Print Assumptions C120_later.
