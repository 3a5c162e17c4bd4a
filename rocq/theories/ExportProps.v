(** C82: export settings of diagnostics.  C83: preprocessing of exported data. *)
Require Import Verif.PyBase Verif.PyLemmas Verif.ArrayProofs Verif.ExportModel.
From Coq Require Import Reals Lra.
Set Implicit Arguments.
Local Open Scope string_scope.
Local Open Scope list_scope.
Local Open Scope Z_scope.

(* ------------------------------------------------------------------ C82 *)
Section C82.
Variables K A : Type.
Variable none : K.
Notation callable := (callable A).

(** the names asked for *)
Definition names_of (fa : funcs_arg) : list string := match fa with FStr s => [s] | FList l => l end.
(** the keyword arguments of the n exports *)
Definition kwargs_are (ka : kwargs_arg K) (ks : list K) : Prop :=
  match ka with KNone => ks = [none] | KDict d => ks = [d] | KList l => ks = l end.
(** the preprocessing functions of the n exports *)
Definition entry_is (e : prep_entry A) (fs : list callable) : Prop := match e with EFun f => fs = [f] | EList l => fs = l end.
Definition prep_is (pa : prep_arg A) (n : nat) (ps : list (list callable)) : Prop :=
  match pa with PNone => ps = repeat [] n | PFun f => ps = [[f]] | PList l => Forall2 entry_is l ps end.

Lemma mapM_dget (table : dict string) names fs : mapM (fun c => dgetE table c) names = Ok fs <-> Forall2 (fun n f => dget table n = Some f) names fs.
Proof.
  split.
  - intros H. apply mapM_inv in H. induction H as [|n f names fs H _ IH]; constructor; auto. unfold dgetE in H. destruct (dget table n); [injection H as <-; auto|discriminate].
  - induction 1 as [|n f names fs H _ IH]; auto. cbn [mapM]. unfold dgetE at 1. rewrite H. cbn [bind]. rewrite IH. auto.
Qed.
Lemma F2_len {X Y} (P : X -> Y -> Prop) l l' : Forall2 P l l' -> length l = length l'.
Proof. induction 1; cbn [length]; auto. Qed.
Lemma prep_norm l : Forall2 entry_is l (map (fun pp => match pp with EFun f => [f] | EList l => l end) l).
Proof. induction l as [|[f|x] l IH]; constructor; cbn; auto. Qed.
Lemma entry_fun l : forall ps, Forall2 entry_is l ps -> ps = map (fun pp => match pp with EFun f => [f] | EList l => l end) l.
Proof. induction l as [|e l IH]; intros ps H; inversion H as [|? p ? ps' E F]; subst; auto. cbn [map]. rewrite <- (IH _ F). destruct e; cbn in E; subst; auto. Qed.

(** C82.  The settings are accepted exactly if all names are known and there are as many sets of keyword arguments and
    of preprocessing functions as names; they are then stored in the order given. *)
Theorem C82_accepted table fa ka pa s : export_settings none table fa ka pa = Ok s <->
  Forall2 (fun n f => dget table n = Some f) (names_of fa) (s_funcs s) /\
  kwargs_are ka (s_kwargs s) /\ length (s_kwargs s) = length (s_funcs s) /\
  prep_is pa (length (s_funcs s)) (s_prep s) /\ length (s_prep s) = length (s_funcs s).
Proof.
  unfold export_settings. cbv zeta. change (match fa with FStr s => [s] | FList l => l end) with (names_of fa).
  assert (RP : forall {X Y} (x : Y) (l : list X), map (fun pp : prep_entry A => match pp with EFun f => [f] | EList l => l end) (map (fun _ => EList []) l) = repeat [] (length l)).
  { intros X Y x l. induction l; cbn; [auto|rewrite IHl; auto]. }
  split.
  - intros H. apply bind_ok in H as (fs & Hf & H). apply mapM_dget in Hf. apply bind_ok in H as (u & Hu & H). apply bind_ok in H as (v & Hv & H). injection H as <-. cbn [s_funcs s_kwargs s_prep].
    unfold passert, zlen in *. match type of Hu with (if ?b then _ else _) = _ => destruct b eqn:e1; [|discriminate] end. match type of Hv with (if ?b then _ else _) = _ => destruct b eqn:e2; [|discriminate] end.
    split; [auto|]. split; [destruct ka; reflexivity|]. split; [lia|]. split; [|lia]. unfold prep_is. destruct pa as [|f|l]; [apply (@RP _ _ tt)|reflexivity|apply prep_norm].
  - intros (H1 & H2 & H3 & H4 & H5). destruct s as [fs ks ps]. cbn [s_funcs s_kwargs s_prep] in *. rewrite (proj2 (mapM_dget _ _ _) H1). cbn [bind].
    assert (match ka with KNone => [none] | KDict d => [d] | KList l => l end = ks) as -> by (destruct ka; cbn in H2; auto).
    assert (map (fun pp => match pp with EFun f => [f] | EList l => l end) match pa with PNone => map (fun _ => EList []) fs | PFun f => [EFun f] | PList l => l end = ps) as ->.
    { destruct pa as [|f|l]; cbn in H4; [subst; apply (@RP _ _ tt)|subst; auto|symmetry; apply entry_fun; auto]. }
    unfold passert, zlen. replace (Z.of_nat (length ks) =? Z.of_nat (length fs)) with true by lia. cbn [bind].
    replace (Z.of_nat (length ps) =? Z.of_nat (length fs)) with true by lia. auto.
Qed.
(** otherwise the error is a KeyError for an unknown name, else an AssertionError *)
Theorem C82_refused table fa ka (pa : prep_arg A) e : export_settings none table fa ka pa = Err e ->
  (e = KeyError /\ exists n, In n (names_of fa) /\ dget table n = None) \/ (e = AssertionError /\ forall n, In n (names_of fa) -> dget table n <> None).
Proof.
  unfold export_settings. cbv zeta. change (match fa with FStr s => [s] | FList l => l end) with (names_of fa).
  destruct (mapM _ (names_of fa)) as [fs|x] eqn:Q; cbn [bind].
  - intros H. right. apply mapM_dget in Q. split.
    + unfold passert in H. destruct (_ =? zlen fs); cbn [bind] in H; [|injection H; auto]. destruct (_ =? zlen fs); cbn [bind] in H; [discriminate|injection H; auto].
    + clear H. revert Q. generalize (names_of fa) as names. intros names Q n Hn Hd. induction Q as [|n' f names fs E _ IH]; [destruct Hn|]. destruct Hn as [->|Hn]; [rewrite E in Hd; discriminate|auto].
  - intros H. injection H as ->. left. revert Q. generalize (names_of fa) as names. induction names as [|n names IH]; cbn [mapM]; [discriminate|]. unfold dgetE at 1. destruct (dget table n) eqn:D; cbn [bind].
    + destruct (mapM _ names) eqn:Q; cbn [bind]; [discriminate|]. intros H. injection H as ->. destruct (IH eq_refl) as (-> & m & M1 & M2). split; auto. exists m. split; auto. right; auto.
    + intros H. injection H as <-. split; auto. exists n. split; auto. left; auto.
Qed.
(** An export calls each function once, in order, with its own keyword arguments and preprocessing functions. *)
Theorem C82_calls table fa ka (pa : prep_arg A) s : export_settings none table fa ka pa = Ok s -> (forall p f, In p (s_prep s) -> In f p -> has_name f = true) ->
  exists calls, export_single_diag s = Ok calls /\ length calls = length (names_of fa) /\
    forall i n, nth_error (names_of fa) i = Some n -> exists f k p, nth_error calls i = Some (f, k, p) /\ dget table n = Some f /\
      nth_error (s_kwargs s) i = Some k /\ nth_error (s_prep s) i = Some p.
Proof.
  intros H HN. apply C82_accepted in H as (H1 & _ & H3 & _ & H5). unfold export_single_diag, verify_same_export_settings.
  assert (forallb (fun prep => forallb (@has_name A) prep) (s_prep s) = true) as ->. { apply forallb_forall. intros p Hp. apply forallb_forall. intros f Hf. eauto. }
  cbn [bind]. eexists. split; [reflexivity|]. revert H1 H3 H5. generalize (s_funcs s) as fs, (s_kwargs s) as ks, (s_prep s) as ps. generalize (names_of fa) as names. clear.
  induction names as [|n names IH]; intros fs ks ps H1 H3 H5; inversion H1 as [|? f ? fs' E F]; subst; cbn [length] in *; destruct ks as [|k ks]; try discriminate; destruct ps as [|p ps]; try discriminate.
  - split; auto. intros [|i] n H; discriminate.
  - cbn [length combine] in *. destruct (IH fs' ks ps F) as [I1 I2]; try lia. split; [lia|]. intros [|i] m Hm; cbn [nth_error] in *.
    + injection Hm as <-. exists f, k, p. auto.
    + apply I2; auto.
Qed.
(** A preprocessing function without __name__, such as a functools.partial object, is accepted but no export succeeds. *)
Theorem C82_unnamed_refuted table n (f : callable) : dget table n <> None -> has_name f = false -> exists s, export_settings none table (FStr n) KNone (PFun f) = Ok s /\ export_single_diag s = Err AttributeError.
Proof.
  intros H Hf. destruct (dget table n) as [g|] eqn:Q; [|congruence]. exists (mkSet [g] [none] [[f]]). split.
  - apply C82_accepted. cbn. repeat split; auto.
  - unfold export_single_diag, verify_same_export_settings. cbn. rewrite Hf. auto.
Qed.
(** The default keyword arguments can only be used with a single export function. *)
Theorem C82_defaults_refuted table fa (pa : prep_arg A) : (forall n, In n (names_of fa) -> dget table n <> None) -> length (names_of fa) <> 1%nat ->
  export_settings none table fa KNone pa = Err AssertionError.
Proof.
  intros HN HL. destruct (export_settings none table fa KNone pa) as [s|e] eqn:Q.
  - exfalso. apply C82_accepted in Q as (H1 & H2 & H3 & _). cbn in H2. rewrite H2 in H3. apply HL. clear - H1 H3. cbn [length] in H3. apply F2_len in H1. lia.
  - apply C82_refused in Q as [(_ & n & N1 & N2)|[-> _]]; auto. exfalso. eapply HN; eauto.
Qed.
(** Diagnostics with different names can be added; a name in use is refused. *)
Theorem C82_added {D} (d : dict D) name x : 
  (dget d name = None -> add_diagnostic d name x = Ok (d ++ [(name, x)])) /\ (dget d name <> None -> add_diagnostic d name x = Err AssertionError).
Proof.
  unfold add_diagnostic, dmem. split; intros H; [rewrite H; cbn; rewrite (dset_new _ _ x H); auto|]. destruct (dget d name); [auto|congruence].
Qed.
End C82.

Section C82_classes.
(** every export function offered by a class can use its output, with one exception *)
Theorem C82_offered_partial c n f : dget (export_functions c) n = Some f -> ~ (c = CSignal /\ n = "spectrum") -> first_use f (output_kind c) = Ok tt.
Proof.
  intros H N. assert (N' : c = CSignal -> String.eqb n "spectrum" = false) by (intros ->; apply String.eqb_neq; intros ->; apply N; auto).
  destruct c; cbn [export_functions dget] in H; cbn [output_kind].
  all: repeat match type of H with (if ?b then _ else _) = _ => destruct b eqn:?; [injection H as <-; try reflexivity|] end; try discriminate.
  all: specialize (N' eq_refl); congruence.
Qed.
(** an array can be given to every function but the figure over time *)
Theorem C82_array_use f : first_use f OArray = Ok tt <-> f <> "function_of_time_plot"%string.
Proof. cbn [first_use]. destruct (String.eqb_spec f "function_of_time_plot"); split; try discriminate; congruence. Qed.
Theorem C82_spectrum_refuted : exists f, dget (export_functions CSignal) "spectrum" = Some f /\ first_use f (output_kind CSignal) = Err AttributeError.
Proof. eexists. split; reflexivity. Qed.
(** the names a user may choose, the function of plot.py each stands for and the classes that know it *)
Definition choices : list (string * string * list diag_class) :=
  [("npz", "savenpz", [CSignal; CState; CInstant; CSoundfield; CSummary]); ("text", "txt", [CSignal; CInstant; CSummary]); ("wav", "create_audio_files", [CSignal]);
   ("plot", "function_of_time_plot", [CSignal; CState]); ("plot", "plot_ir", [CInstant]); ("matshow", "matshow", [CInstant]);
   ("spectrum", "spectrum_plot", [CSignal; CSummary]); ("image", "soundfield", [CSoundfield])].
(** C82.  A choice stands for the same function in every class that knows it, but for "plot", which is a figure over time for
    diagnostics of signals and states and a figure of impulse responses for instant ones *)
Ltac tauto_in := repeat first [left; reflexivity|right].
Theorem C82_meaning c n f : dget (export_functions c) n = Some f <-> exists classes, In (n, f, classes) choices /\ In c classes.
Proof.
  split.
  - intros H. assert (K : In (n, f) (export_functions c)) by (apply dget_In in H; exact H). clear H. unfold choices.
    destruct c; cbn [export_functions In] in K; repeat (destruct K as [K|K]; [injection K as <- <-; eexists; split; cbn [In]; [tauto_in|cbn; tauto]|]); destruct K.
  - intros (classes & H & HC). unfold choices in H. repeat (destruct H as [H|H]; [injection H as <- <- <-; repeat (destruct HC as [<- |HC]; [reflexivity|]); destruct HC|]). destruct H.
Qed.
End C82_classes.

(* ------------------------------------------------------------------ C83 *)
(** y comes from x by applying the functions in the order of the list *)
Inductive applied {A} : list (A -> res A) -> A -> A -> Prop :=
| applied_none x : applied [] x x
| applied_more fs f x y z : applied fs x y -> f y = Ok z -> applied (fs ++ [f]) x z.

Theorem C83_order {A T} (prep : list (callable A)) output (times : T) r :
  processed_timed prep output times = Ok r <-> applied (map (@call A) prep) output (fst r) /\ snd r = times.
Proof.
  assert (K : forall o, processed prep output = Ok o <-> applied (map (@call A) prep) output o).
  { unfold processed. induction prep as [|f prep IH] using rev_ind; intros o.
    - cbn. split; [intros H; injection H as <-; constructor|]. intros H. inversion H as [|fs f ? y ? H1 H2 E]; subst; auto. destruct fs; discriminate.
    - rewrite foldM_app, map_app. cbn [map]. split.
      + intros H. apply bind_ok in H as (y & Hy & H). cbn [foldM] in H. apply bind_ok in H as (z & Hz & H). injection H as <-. apply IH in Hy. econstructor; eauto.
      + intros H. inversion H as [? E|fs g ? y ? H1 H2 E]; subst; [destruct (map (@call A) prep); discriminate|]. apply app_inj_tail in E as [-> ->]. apply IH in H1. rewrite H1. cbn [bind foldM]. rewrite H2. auto. }
  unfold processed_timed. destruct r as [o t]. cbn [fst snd]. rewrite <- K. destruct (processed prep output) as [x|e]; cbn [bind]; split; [intros H; injection H as <- <-; auto|intros [H ->]; injection H as ->; auto|discriminate|intros [H _]; discriminate].
Qed.

Section Numbers.
Local Open Scope R_scope.
Notation "x .[ i ]" := (zget x i) (at level 2, left associativity).

(** the sum of x[a], .., x[b-1] *)
Definition window_sum (x : list R) (a b : Z) : R := rsum_ (map (fun j => match x.[j] with Some v => v | None => 0 end) (zrange a b)).
Lemma rsum_app a b : rsum_ (a ++ b) = rsum_ a + rsum_ b.
Proof. unfold rsum_. induction a; cbn; lra. Qed.
Lemma rsum_const c (l : list R) : rsum_ (map (fun v => c * v) l) = c * rsum_ l.
Proof. unfold rsum_. induction l; cbn; lra. Qed.
Lemma rsum_rev l : rsum_ (rev l) = rsum_ l.
Proof. induction l; cbn [rev]; auto. rewrite rsum_app, IHl. unfold rsum_. cbn. lra. Qed.
Lemma zrange_rev a n : (0 <= n)%Z -> rev (zrange a (a + n)) = map (fun k => (a + n - 1 - k)%Z) (zrange 0 n).
Proof.
  intros H. apply zget_ext. intros i. rewrite zget_map, zget_zrange.
  assert (L : forall {X} (l : list X) i, zget (rev l) i = if ((0 <=? i) && (i <? zlen l))%Z%bool then zget l (zlen l - 1 - i)%Z else None).
  { clear. intros X l. induction l as [|x l IH]; intros i.
    - cbn. destruct ((0 <=? i)%Z && (i <? 0)%Z)%bool eqn:Q; [lia|]. unfold zget. destruct (i <? 0)%Z; auto. destruct (Z.to_nat i); auto.
    - cbn [rev]. rewrite zget_app. assert (zlen (rev l) = zlen l) as R by (unfold zlen; rewrite rev_length; auto). rewrite R, zlen_cons, IH. pose proof (zlen_nonneg l).
      destruct (Z.ltb_spec i (zlen l)).
      + destruct (Z.leb_spec 0 i); cbn [andb].
        * replace (i <? zlen l)%Z with true by lia. replace (i <? 1 + zlen l)%Z with true by lia. rewrite zget_cons by lia. replace (1 + zlen l - 1 - i =? 0)%Z with false by lia. f_equal. lia.
        * reflexivity.
      + replace (0 <=? i)%Z with true by lia. cbn [andb]. destruct (Z.ltb_spec i (1 + zlen l)).
        * replace i with (zlen l) by lia. replace (zlen l - zlen l)%Z with 0%Z by lia. replace (1 + zlen l - 1 - zlen l)%Z with 0%Z by lia. auto.
        * rewrite zget_cons by lia. replace (i - zlen l =? 0)%Z with false by lia. apply zget_out. cbn. lia. }
  rewrite L, zlen_zrange, zget_zrange. replace (Z.max 0 (a + n - a)) with n by lia. replace (n - 0)%Z with n by lia. destruct ((0 <=? i)%Z && (i <? n)%Z)%bool eqn:Q; cbn [option_map]; auto.
  replace (0 <=? n - 1 - i)%Z with true by lia. replace (n - 1 - i <? a + n - a)%Z with true by lia. cbn [andb]. f_equal. lia.
Qed.

(** C83.  smooth is the causal moving average: the output at time t is the sum of the last [len] samples up to and
    including t, divided by [len]; samples before the start count as zero; channels and length stay. *)
Theorem C83_smooth len signal : (1 <= len)%Z -> (exists ch, In ch signal /\ ch <> []) ->
  exists out, smooth len signal = Ok out /\ length out = length signal /\
    forall c ch, nth_error signal c = Some ch -> exists y, nth_error out c = Some y /\ zlen y = zlen ch /\
      forall t, (0 <= t < zlen ch)%Z -> y.[t] = Some (window_sum ch (t + 1 - len) (t + 1) / IZR len).
Proof.
  intros HL (c0 & I0 & N0). unfold smooth. replace (len <? 0)%Z with false by lia. replace (len =? 0)%Z with false by lia. cbn [orb].
  assert (forallb (fun ch => zlen ch =? 0)%Z signal = false) as ->.
  { destruct (forallb _ signal) eqn:Q; auto. rewrite forallb_forall in Q. specialize (Q _ I0). destruct c0; [congruence|]. rewrite zlen_cons in Q. pose proof (zlen_nonneg c0). lia. }
  cbv zeta. set (ir := map (fun x => x / IZR len) (zrep len 1)).
  assert (LI : zlen ir = len) by (unfold ir, zlen; rewrite map_length; unfold zrep; rewrite repeat_length; lia).
  assert (GI : forall k, (0 <= k < len)%Z -> ir.[k] = Some (/ IZR len)).
  { intros k Hk. unfold ir. rewrite zget_map, zget_zrep. replace ((0 <=? k) && (k <? len))%Z%bool with true by lia. cbn. f_equal. unfold Rdiv. ring. }
  eexists. split; [reflexivity|]. split; [rewrite map_length; auto|]. intros c ch Hc. eexists. split; [rewrite nth_error_map, Hc; reflexivity|].
  pose proof (zlen_nonneg ch). assert (LC : zlen (convolve_full ch ir) = Z.max 0 (zlen ch + len - 1)) by (unfold convolve_full, zlen at 1; rewrite map_length; fold (zlen (zrange 0 (zlen ch + zlen ir - 1))); rewrite zlen_zrange, LI; f_equal; lia).
  split; [rewrite zlen_pyslice_in; lia|]. intros t Ht. rewrite zget_pyslice_in by lia. replace ((0 <=? t) && (t <? zlen ch - 0))%Z%bool with true by lia.
  unfold convolve_full. rewrite zget_map, zget_zrange. replace ((0 <=? 0 + t) && (0 + t <? zlen ch + zlen ir - 1 - 0))%Z%bool with true by lia. cbn [option_map]. f_equal. rewrite LI.
  set (f := fun j => match ch.[j] with Some v => v | None => 0 end).
  assert (W : window_sum ch (t + 1 - len) (t + 1) = rsum_ (map (fun k => f (t - k)%Z) (zrange 0 len))).
  { unfold window_sum. fold f. rewrite <- rsum_rev, <- map_rev. replace (t + 1)%Z with (t + 1 - len + len)%Z at 2 by lia. rewrite zrange_rev by lia. rewrite map_map. f_equal. apply map_ext. intros k. f_equal. lia. }
  rewrite W. unfold Rdiv. rewrite Rmult_comm, <- rsum_const, map_map. f_equal. apply map_ext_in. intros k Hk. apply In_zrange in Hk. rewrite GI by lia. unfold f. replace (0 + (0 + t) - k)%Z with (t - k)%Z by lia. destruct (ch.[(t - k)%Z]); ring.
Qed.
Theorem C83_smooth_refused len signal : (len < 0)%Z /\ smooth len signal = Err ValueError \/ len = 0%Z /\ smooth len signal = Err IndexError \/ (1 <= len)%Z.
Proof. unfold smooth. destruct (Z.ltb_spec len 0); [left; split; [lia|auto]|]. destruct (Z.eqb_spec len 0); [right; left; subst; auto|right; right; lia]. Qed.
(** clip keeps what lies between the limits and moves everything else to the nearer limit *)
Theorem C83_clip low high signal c t ch x : low <= high -> nth_error signal c = Some ch -> ch.[t] = Some x ->
  exists y z, nth_error (clip low high signal) c = Some y /\ y.[t] = Some z /\ low <= z <= high /\ (low <= x <= high -> z = x) /\ (x < low -> z = low) /\ (high < x -> z = high).
Proof.
  intros H Hc Hx. unfold clip. eexists. eexists. split; [rewrite nth_error_map, Hc; reflexivity|]. split; [rewrite zget_map, Hx; reflexivity|].
  unfold Rmin, Rmax. destruct (Rle_dec x low); destruct (Rle_dec _ high); split; try lra; repeat split; intros; lra.
Qed.
(** the two decibel scales agree: an amplitude in decibel is its power in decibel *)
Theorem C83_decibel x y : 0 < x -> 0 < y -> db_amplitude x = db_power (x * x) /\ db_power (x * y) = db_power x + db_power y /\ db_power (10 * x) = db_power x + 10.
Proof.
  intros Hx Hy. unfold db_amplitude, db_power. assert (T : 0 < ln 10) by (rewrite <- ln_1; apply ln_increasing; lra). rewrite !ln_mult by lra. repeat split; field; lra.
Qed.
End Numbers.

(* ------------------------------------------------------------------ Examples *)
Section Examples.
Let f1 : callable Z := mkCall true (fun x => Ok (x + 1)).
Let f2 : callable Z := mkCall true (fun x => Ok (2 * x)).
Example C82_accepted_meets : export_settings 0 (export_functions CSignal) (FList ["npz"; "plot"]) (KList [5; 6]) (PList [EFun f1; EList [f1; f2]]) =
  Ok (mkSet ["savenpz"; "function_of_time_plot"] [5; 6] [[f1]; [f1; f2]]).
Proof. reflexivity. Qed.
Example C82_refused_meets : export_settings 0 (export_functions CState) (FStr "wav") KNone (@PNone Z) = Err KeyError /\
  export_settings 0 (export_functions CState) (FList ["npz"; "plot"]) (KList [5; 6]) (PFun f1) = Err AssertionError.
Proof. split; reflexivity. Qed.
Example C82_calls_meets : exists s, export_settings 0 (export_functions CSignal) (FList ["npz"; "plot"]) (KList [5; 6]) (PList [EFun f1; EList [f1; f2]]) = Ok s /\
  (forall p f, In p (s_prep s) -> In f p -> has_name f = true) /\ export_single_diag s = Ok [("savenpz", 5, [f1]); ("function_of_time_plot", 6, [f1; f2])].
Proof.
  eexists. split; [reflexivity|]. split; [|reflexivity]. cbn [s_prep In]. intros p f [<-|[<-|[]]] Hf; cbn [In] in Hf; intuition (subst; reflexivity).
Qed.
Example C82_unnamed_refuted_meets : dget (export_functions CState) "npz" <> None /\ has_name (mkCall false (fun x : Z => Ok x)) = false.
Proof. split; [discriminate|reflexivity]. Qed.
Example C82_defaults_refuted_meets : (forall n, In n (names_of (FList ["npz"; "plot"])) -> dget (export_functions CState) n <> None) /\ length (names_of (FList ["npz"; "plot"])) <> 1%nat.
Proof. split; [intros n [<-|[<-|[]]]; discriminate|discriminate]. Qed.
Example C82_added_meets : add_diagnostic [("a", 1)] "b" 2 = Ok [("a", 1); ("b", 2)] /\ add_diagnostic [("a", 1)] "a" 2 = Err AssertionError.
Proof. split; reflexivity. Qed.
Example C82_meaning_meets : dget (export_functions CSoundfield) "image" = Some "soundfield" /\ dget (export_functions CState) "wav" = None.
Proof. split; reflexivity. Qed.
Example C82_offered_partial_meets : dget (export_functions CSignal) "wav" = Some "create_audio_files" /\ ~ (CSignal = CSignal /\ "wav" = "spectrum").
Proof. split; [reflexivity|intros [_ H]; discriminate]. Qed.
Example C83_order_meets : processed_timed [f1; f2] 3 "t" = Ok (8, "t") /\ processed_timed [f2; f1] 3 "t" = Ok (7, "t").
Proof. split; reflexivity. Qed.
Local Open Scope R_scope.
Example C83_smooth_meets : (1 <= 2)%Z /\ (exists ch, In ch [[1; 2; 3]] /\ ch <> []) /\ window_sum [1; 2; 3] (2 + 1 - 2) (2 + 1) / 2 = 5 / 2 /\ window_sum [1; 2; 3] (0 + 1 - 2) (0 + 1) / 2 = 1 / 2.
Proof. split; [lia|]. split; [exists [1; 2; 3]; split; [left; auto|discriminate]|]. unfold window_sum. change (zrange (2 + 1 - 2) (2 + 1)) with [1; 2]%Z. change (zrange (0 + 1 - 2) (0 + 1)) with [-1; 0]%Z.
  cbn [map]. change (zget [1; 2; 3] 1) with (Some 2). change (zget [1; 2; 3] 2) with (Some 3). change (zget [1; 2; 3] (-1)) with (@None R). change (zget [1; 2; 3] 0) with (Some 1). unfold rsum_. cbn [fold_right]. lra. Qed.
Example C83_clip_meets : 0 <= 1 /\ nth_error [[5; 1]] 0 = Some [5; 1] /\ zget [5; 1] 0 = Some 5.
Proof. split; [lra|]. split; reflexivity. Qed.
Example C83_decibel_meets : 0 < 2 /\ 0 < 3.
Proof. lra. Qed.
End Examples.

Print Assumptions C82_accepted.
Print Assumptions C82_refused.
Print Assumptions C82_calls.
Print Assumptions C82_unnamed_refuted.
Print Assumptions C82_defaults_refuted.
Print Assumptions C82_added.
Print Assumptions C82_offered_partial.
Print Assumptions C82_spectrum_refuted.
Print Assumptions C82_array_use.
Print Assumptions C82_meaning.
Print Assumptions C83_order.
Print Assumptions C83_smooth.
Print Assumptions C83_smooth_refused.
Print Assumptions C83_clip.
Print Assumptions C83_decibel.
