(** C87: frequency responses of the paths.  C88: AR filters from autocorrelations.  C89: loading of audio files.
    C90: cardioid microphones. *)
Require Import Verif.PyBase Verif.PyLemmas Verif.ExportModel Verif.FreqModel.
From Coq Require Import Reals Lra.
Set Implicit Arguments.
Local Open Scope Z_scope.
Notation "x .[ i ]" := (zget x i) (at level 2, left associativity).

(* ------------------------------------------------------------------ sums *)
Section Sums.
Local Open Scope R_scope.
Lemma sumz_ext a b f g : (forall k, (a <= k < b)%Z -> f k = g k) -> sumz a b f = sumz a b g.
Proof. intros H. unfold sumz. f_equal. apply map_ext_in. intros k Hk. apply In_zrange in Hk. auto. Qed.
Arguments sumz_ext : clear implicits.
Lemma sumz_scale a b f c : sumz a b (fun k => c * f k) = c * sumz a b f.
Proof. unfold sumz, rsum. induction (zrange a b) as [|k l IH]; cbn [map fold_right]; [ring|]. rewrite IH. ring. Qed.
Lemma sumz_add a b f g : sumz a b (fun k => f k + g k) = sumz a b f + sumz a b g.
Proof. unfold sumz, rsum. induction (zrange a b) as [|k l IH]; cbn [map fold_right]; [ring|]. rewrite IH. ring. Qed.
Lemma sumz_opp a b f : sumz a b (fun k => - f k) = - sumz a b f.
Proof. unfold sumz, rsum. induction (zrange a b) as [|k l IH]; cbn [map fold_right]; [ring|]. rewrite IH. ring. Qed.
Lemma sumz_first a b f : (a < b)%Z -> sumz a b f = f a + sumz (a + 1) b f.
Proof. intros H. unfold sumz. rewrite zrange_cons by auto. reflexivity. Qed.
Lemma sumz_none a b f : (b <= a)%Z -> sumz a b f = 0.
Proof. intros H. unfold sumz. rewrite zrange_empty by auto. reflexivity. Qed.
Lemma sumz_zero a b f : (forall k, (a <= k < b)%Z -> f k = 0) -> sumz a b f = 0.
Proof. intros H. rewrite (sumz_ext _ _ _ (fun k => 0 * f k)) by (intros k Hk; rewrite (H k Hk); ring). rewrite sumz_scale. ring. Qed.
Lemma sumz_shift a b c f : sumz a b f = sumz (a + c) (b + c) (fun k => f (k - c)%Z).
Proof. unfold sumz. f_equal. rewrite (map_zrange_shift (fun k => f (k - c)%Z) a b c). apply map_ext. intros k. f_equal. lia. Qed.
End Sums.
Arguments sumz_ext : clear implicits.

(* ------------------------------------------------------------------ C87 *)
Section C87.
Local Open Scope R_scope.
(** F is the response of the path from source s to microphone m, cut to [n] samples: with the angular frequency w (radians
    per sample) of entry f, an input cos(w t) or sin(w t) that has been running for ever is answered by the convolution with the
    same sinusoid multiplied by the complex number F[f, m, s] *)
Definition responds (path : arr3 R) (n : Z) (w : Z -> R) (F : arr3 cplx) : Prop :=
  forall f m s t, (0 <= f <= n / 2)%Z ->
    let h := at3 path s m in
    let '(re, im) := at3 F f m s in
    sumz 0 (Z.min (dim2 path) n) (fun k => h k * cos (w f * (IZR t - IZR k))) = re * cos (w f * IZR t) - im * sin (w f * IZR t) /\
    sumz 0 (Z.min (dim2 path) n) (fun k => h k * sin (w f * (IZR t - IZR k))) = re * sin (w f * IZR t) + im * cos (w f * IZR t).
Definition path_of {A} (paths : dict (dict A)) (src mic : string) : option A := match dget paths src with Some d => dget d mic | None => None end.

Lemma path_of_set {A} (fp : dict (dict A)) s m v s' m' :
  path_of (dset fp s (dset match dget fp s with Some d => d | None => [] end m v)) s' m' = if (String.eqb s' s && String.eqb m' m)%bool then Some v else path_of fp s' m'.
Proof.
  unfold path_of. rewrite dget_dset. destruct (String.eqb_spec s' s) as [->|]; cbn [andb]; auto. rewrite dget_dset. destruct (String.eqb m' m); auto. destruct (dget fp s); auto.
Qed.
Lemma rfft_responds n path F sr : (0 < n)%Z -> 0 < sr -> rfft_T n path = Ok F -> dim0 F = (n / 2 + 1)%Z /\ dim1 F = dim1 path /\ dim2 F = dim0 path /\ responds path n (fun f => 2 * PI * (sr / IZR n * IZR f) / sr) F.
Proof.
  intros Hn Hs H. unfold rfft_T in H. replace (n <? 1)%Z with false in H by lia. injection H as <-. cbn [dim0 dim1 dim2 at3]. do 3 (split; [auto|]). intros f m s t Hf. cbv zeta. cbn [at3]. unfold rfft_at. set (h := at3 path s m). set (w := 2 * PI * (sr / IZR n * IZR f) / sr).
  assert (IZR n <> 0) by (apply not_0_IZR; lia). assert (W : forall k, 2 * PI * IZR f * IZR k / IZR n = w * IZR k) by (intros k; unfold w; field; lra).
  rewrite (sumz_ext 0 (Z.min (dim2 path) n) (fun t => h t * cos (2 * PI * IZR f * IZR t / IZR n)) (fun k => h k * cos (w * IZR k))) by (intros; rewrite W; auto).
  rewrite (sumz_ext 0 (Z.min (dim2 path) n) (fun t => h t * sin (2 * PI * IZR f * IZR t / IZR n)) (fun k => h k * sin (w * IZR k))) by (intros; rewrite W; auto).
  split.
  - rewrite (sumz_ext _ _ _ (fun k => cos (w * IZR t) * (h k * cos (w * IZR k)) + sin (w * IZR t) * (h k * sin (w * IZR k)))).
    + rewrite sumz_add, !sumz_scale. ring.
    + intros k _. rewrite Rmult_minus_distr_l, cos_minus. ring.
  - rewrite (sumz_ext _ _ _ (fun k => sin (w * IZR t) * (h k * cos (w * IZR k)) + (- cos (w * IZR t)) * (h k * sin (w * IZR k)))).
    + rewrite sumz_add, !sumz_scale. ring.
    + intros k _. rewrite Rmult_minus_distr_l, sin_minus. ring.
Qed.

Section Run.
Variables (names_src names_mic : list string) (paths : dict (dict (arr3 R))) (n : Z) (sr : R).
Hypothesis n_pos : (0 < n)%Z.
Let step src (fpaths : dict (dict (arr3 cplx))) mic := from_src <- dgetE paths src ;; path <- dgetE from_src mic ;;
  let inner : dict (arr3 cplx) := match dget fpaths src with Some d => d | None => [] end in value <- rfft_T n path ;; Ok (dset fpaths src (dset inner mic value)).
Lemma step_ok src mic (fp : dict (dict (arr3 cplx))) : path_of paths src mic <> None -> exists path F, path_of paths src mic = Some path /\ rfft_T n path = Ok F /\
  step src fp mic = Ok (dset fp src (dset match dget fp src with Some d => d | None => [] end mic F)).
Proof.
  unfold path_of, step, dgetE. intros H. destruct (dget paths src) as [d|]; [|congruence]. cbn [bind]. destruct (dget d mic) as [path|]; [|congruence]. cbn [bind]. unfold rfft_T. replace (n <? 1)%Z with false by lia. cbn [bind]. eauto 6.
Qed.
Lemma inner_ok src : forall mics (fp : dict (dict (arr3 cplx))), (forall m, In m mics -> path_of paths src m <> None) -> exists fp', foldM (step src) fp mics = Ok fp' /\
  (forall s m, ~ (s = src /\ In m mics) -> path_of fp' s m = path_of fp s m) /\
  (forall m, In m mics -> exists path F, path_of paths src m = Some path /\ rfft_T n path = Ok F /\ path_of fp' src m = Some F).
Proof.
  induction mics as [|m0 mics IH]; intros fp H; cbn [foldM].
  - exists fp. split; auto. split; auto. intros m [].
  - destruct (step_ok src m0 fp) as (path & F & P1 & P2 & E); [apply H; left; auto|]. rewrite E. cbn [bind]. destruct (IH (dset fp src (dset match dget fp src with Some d => d | None => [] end m0 F))) as (fp' & E' & K1 & K2); [intros; apply H; right; auto|]. exists fp'. split; auto. split.
    + intros s m N. rewrite K1 by (intros [-> I]; apply N; split; [auto|right; auto]). etransitivity; [exact (path_of_set fp src m0 F s m)|]. destruct (String.eqb_spec s src) as [->|]; destruct (String.eqb_spec m m0) as [->|]; cbn [andb]; auto. exfalso. apply N. split; [auto|left; auto].
    + intros m [<-|I]; [|auto]. destruct (in_dec string_dec m0 mics) as [I|NI]; [auto|]. exists path, F. split; auto. split; auto. rewrite K1 by (intros [_ I]; auto). etransitivity; [exact (path_of_set fp src m0 F src m0)|]. rewrite !String.eqb_refl. auto.
Qed.
Lemma outer_ok : forall srcs (fp : dict (dict (arr3 cplx))), (forall s m, In s srcs -> In m names_mic -> path_of paths s m <> None) -> exists fp', foldM (fun (fp : dict (dict (arr3 cplx))) src => foldM (step src) fp names_mic) fp srcs = Ok fp' /\
  (forall s m, ~ (In s srcs /\ In m names_mic) -> path_of fp' s m = path_of fp s m) /\
  (forall s m, In s srcs -> In m names_mic -> exists path F, path_of paths s m = Some path /\ rfft_T n path = Ok F /\ path_of fp' s m = Some F).
Proof.
  induction srcs as [|s0 srcs IH]; intros fp H; cbn [foldM].
  - exists fp. split; auto. split; auto. intros s m [].
  - destruct (@inner_ok s0 names_mic fp) as (fp1 & E1 & A1 & A2); [intros; apply H; [left; auto|auto]|]. rewrite E1. cbn [bind]. destruct (IH fp1) as (fp' & E' & K1 & K2); [intros; apply H; [right; auto|auto]|]. exists fp'. split; auto. split.
    + intros s m N. rewrite K1 by (intros [I J]; apply N; split; [right; auto|auto]). apply A1. intros [-> J]. apply N. split; [left; auto|auto].
    + intros s m [<-|I] J; [|auto]. destruct (in_dec string_dec s0 srcs) as [I|NI]; [auto|]. rewrite K1 by (intros [I _]; auto). auto.
Qed.
End Run.

(** C87.  Every pair of source and microphone array gets an array of shape (frequencies, microphones, sources), and its entries
    are the responses of the paths at the returned frequencies, given in Hertz. *)
Theorem C87_responses names_src names_mic paths n sr : (0 < n)%Z -> Z.Even n -> 0 < sr ->
  (forall s m, In s names_src -> In m names_mic -> path_of paths s m <> None) ->
  exists fp freqs, get_freq_paths names_src names_mic paths n sr = Ok (fp, freqs) /\
    zlen freqs = (n / 2 + 1)%Z /\ (forall f, (0 <= f <= n / 2)%Z -> freqs.[f] = Some (IZR f * sr / IZR n)) /\
    (forall s m, path_of fp s m <> None -> In s names_src /\ In m names_mic) /\
    forall s m, In s names_src -> In m names_mic -> exists path F, path_of paths s m = Some path /\ path_of fp s m = Some F /\
      dim0 F = (n / 2 + 1)%Z /\ dim1 F = dim1 path /\ dim2 F = dim0 path /\
      responds path n (fun f => match freqs.[f] with Some hz => 2 * PI * hz / sr | None => 0 end) F.
Proof.
  intros Hn He Hs HP. unfold get_freq_paths. replace (n mod 2 =? 1)%Z with false by (destruct He as [q ->]; rewrite Z.mul_comm, Z.mod_mul by lia; auto). replace (n =? 0)%Z with false by lia. cbv zeta.
  destruct (@outer_ok names_mic paths n Hn names_src []) as (fp & E & K1 & K2); [auto|]. match goal with |- context [foldM ?f ?a ?b] => change (foldM f a b) with (foldM (fun (fp : dict (dict (arr3 cplx))) src => foldM (fun (fpaths : dict (dict (arr3 cplx))) mic => from_src <- dgetE paths src ;; path <- dgetE from_src mic ;; let inner : dict (arr3 cplx) := match dget fpaths src with Some d => d | None => [] end in value <- rfft_T n path ;; Ok (dset fpaths src (dset inner mic value))) fp names_mic) [] names_src) end. rewrite E. cbn [bind]. assert (0 <= n / 2)%Z by (apply Z.div_pos; lia). assert (IZR n <> 0) by (apply not_0_IZR; lia).
  assert (GF : forall f, (0 <= f <= n / 2)%Z -> (map (fun k => sr / IZR n * IZR k) (zrange 0 (n / 2 + 1))).[f] = Some (sr / IZR n * IZR f)).
  { intros f Hf. rewrite zget_map, zget_zrange. replace ((0 <=? f)%Z && (f <? n / 2 + 1 - 0)%Z)%bool with true by lia. cbn [option_map]. replace (0 + f)%Z with f by lia. auto. }
  eexists. eexists. split; [reflexivity|]. split; [rewrite zlen_map, zlen_zrange; lia|]. split; [intros f Hf; rewrite GF by auto; f_equal; field; auto|]. split.
  - intros s m N. destruct (in_dec string_dec s names_src) as [I|NI]; [destruct (in_dec string_dec m names_mic) as [J|NJ]; [auto|]|]; exfalso; apply N; rewrite K1 by (intros [? ?]; auto); reflexivity.
  - intros s m I J. destruct (K2 s m I J) as (path & F & P1 & P2 & P3). exists path, F. split; auto. split; auto. destruct (rfft_responds path Hn Hs P2) as (D0 & D1 & D2 & RS). do 3 (split; [auto|]).
    intros f m' s' t Hf. rewrite GF by auto. exact (RS f m' s' t Hf).
Qed.
(** an odd number of frequencies is refused, zero divides by zero *)
Theorem C87_refused names_src names_mic paths n sr : (Z.Odd n -> get_freq_paths names_src names_mic paths n sr = Err NotImplementedError) /\ (n = 0%Z -> get_freq_paths names_src names_mic paths n sr = Err ZeroDivisionError).
Proof.
  split.
  - intros [q ->]. unfold get_freq_paths. replace ((2 * q + 1) mod 2 =? 1)%Z with true; auto. symmetry. apply Z.eqb_eq. rewrite Z.add_comm, Z.mul_comm, Z.mod_add by lia. reflexivity.
  - intros ->. reflexivity.
Qed.
End C87.

(* ------------------------------------------------------------------ C88 *)
Section C88.
Local Open Scope R_scope.
Definition val (l : list R) (i : Z) : R := match l.[i] with Some v => v | None => 0 end.
Lemma sum_combine : forall (a b : list R), zlen a = zlen b -> rsum (map (fun p => fst p * snd p) (combine a b)) = sumz 0 (zlen a) (fun k => val a k * val b k).
Proof.
  induction a as [|x a IH]; intros b L.
  - reflexivity.
  - destruct b as [|y b]; [rewrite zlen_cons in L; pose proof (zlen_nonneg a); rewrite zlen_nil in L; lia|]. rewrite !zlen_cons in L. rewrite zlen_cons. pose proof (zlen_nonneg a). rewrite sumz_first by lia. cbn [combine map fst snd]. change (rsum (?h :: ?t)) with (h + rsum t). rewrite IH by lia.
    f_equal. rewrite (sumz_shift 0 (zlen a) 1). replace (0 + 1)%Z with 1%Z by lia. replace (zlen a + 1)%Z with (1 + zlen a)%Z by lia. apply sumz_ext. intros k Hk. unfold val. rewrite !zget_cons. replace (k =? 0)%Z with false by lia. auto.
Qed.
Lemma tail_val r k : (0 <= k < zlen r - 1)%Z -> val (pyslice r 1 (zlen r)) k = val r (k + 1).
Proof. intros H. unfold val. rewrite zget_pyslice_in by lia. replace ((0 <=? k)%Z && (k <? zlen r - 1)%Z)%bool with true by lia. replace (1 + k)%Z with (k + 1)%Z by lia. auto. Qed.
Lemma init_val r k : (0 <= k < zlen r - 1)%Z -> val (pyslice r 0 (-1)) k = val r k.
Proof.
  intros H. assert (pyslice r 0 (-1) = pyslice r 0 (zlen r - 1)) as -> by (unfold pyslice; replace (norm_idx (zlen r) (-1)) with (norm_idx (zlen r) (zlen r - 1)); [auto|unfold norm_idx; destruct (Z.ltb_spec (-1) 0); destruct (Z.ltb_spec (zlen r - 1) 0); lia]).
  unfold val. rewrite zget_pyslice_in by lia. replace ((0 <=? k)%Z && (k <? zlen r - 1 - 0)%Z)%bool with true by lia. auto.
Qed.

(** Filtering with the returned transfer function is the AR recursion y(n) = a(1) y(n-1) + .. + a(p) y(n-p) + x(n). *)
Theorem C88_recursion a x : let '(num, denom) := ar_coeffs_to_transfer_function a in let y := lfilter num denom x in
  zlen y = zlen x /\ forall n, (0 <= n < zlen x)%Z -> val y n = sumz 1 (zlen a + 1) (fun k => val a (k - 1) * val y (n - k)) + val x n.
Proof.
  unfold ar_coeffs_to_transfer_function. cbv zeta. set (den := 1 :: map Ropp a). unfold lfilter.
  assert (K : forall l y0 : list R, exists e, fold_left (fun (y : list R) (_ : R) => y ++ [lfilter_step [1] den x y]) l y0 = y0 ++ e /\ zlen e = zlen l).
  { clear. induction l as [|v l IH]; intros y0; cbn [fold_left]; [exists []; rewrite app_nil_r; auto|]. destruct (IH (y0 ++ [lfilter_step [1] den x y0])) as (e & E & L). exists (lfilter_step [1] den x y0 :: e). rewrite E, <- app_assoc. split; auto. rewrite !zlen_cons. lia. }
  split; [destruct (K x []) as (e & -> & L); auto|]. intros n Hn.
  assert (x = firstn (Z.to_nat n) x ++ skipn (Z.to_nat n) x) as SX by (symmetry; apply firstn_skipn).
  assert (FL : fold_left (fun y _ => y ++ [lfilter_step [1] den x y]) x [] = fold_left (fun y _ => y ++ [lfilter_step [1] den x y]) (skipn (Z.to_nat n) x) (fold_left (fun y _ => y ++ [lfilter_step [1] den x y]) (firstn (Z.to_nat n) x) [])) by (rewrite <- fold_left_app, <- SX; auto).
  set (y := fold_left (fun y _ => y ++ [lfilter_step [1] den x y]) x []) in *. destruct (K (firstn (Z.to_nat n) x) []) as (y1 & E1 & L1). cbn [app] in E1. rewrite E1 in FL. rewrite zlen_firstn in L1. replace (Z.min (Z.max 0 n) (zlen x)) with n in L1 by lia.
  assert (LS : zlen (skipn (Z.to_nat n) x) = (zlen x - n)%Z) by (rewrite zlen_skipn; lia). destruct (skipn (Z.to_nat n) x) as [|xn rest] eqn:SK; [cbn in LS; lia|]. cbn [fold_left] in FL. destruct (K rest (y1 ++ [lfilter_step [1] den x y1])) as (e & E & _). rewrite E in FL.
  assert (GY : forall k, (k < n)%Z -> val y k = val y1 k) by (intros k Hk; unfold val; rewrite FL, <- app_assoc, zget_app; replace (k <? zlen y1)%Z with true by lia; auto).
  assert (val y n = lfilter_step [1] den x y1) as -> by (unfold val; rewrite FL, <- app_assoc, zget_app; replace (n <? zlen y1)%Z with false by lia; replace (n - zlen y1)%Z with 0%Z by lia; auto).
  unfold lfilter_step. cbv zeta. rewrite L1. change (match den.[0] with Some v => v | None => 0 end) with 1. change (zlen [1]) with 1%Z. rewrite (@sumz_first 0 1) by lia. rewrite (@sumz_none (0 + 1)) by lia. replace (n - 0)%Z with n by lia. fold (val x n). change (match [1].[0] with Some v => v | None => 0 end) with 1.
  replace (zlen den) with (zlen a + 1)%Z by (unfold den; rewrite zlen_cons, zlen_map; lia).
  rewrite (sumz_ext 1 (zlen a + 1) (fun k => match den.[k] with Some v => v | None => 0 end * match y1.[n - k] with Some v => v | None => 0 end) (fun k => - (val a (k - 1) * val y (n - k)))).
  - rewrite sumz_opp. field.
  - intros k Hk. rewrite GY by lia. unfold den. rewrite zget_cons. replace (k =? 0)%Z with false by lia. rewrite zget_map. unfold val. destruct (a.[k - 1]); cbn [option_map]; ring.
Qed.

Variable solve_toeplitz : list R -> list R -> res (list R).
(** what is assumed about scipy's solve_toeplitz: a result solves the symmetric Toeplitz system *)
Definition solves_toeplitz : Prop := forall c b x, zlen c = zlen b -> solve_toeplitz c b = Ok x ->
  zlen x = zlen b /\ forall i, (0 <= i < zlen b)%Z -> sumz 0 (zlen b) (fun j => val c (Z.abs (i - j)) * val x j) = val b i.

(** C88.  With p = number of lags - 1, the coefficients a(1), .., a(p) and the noise power satisfy the Yule-Walker equations of
    an AR process with the given autocorrelation. *)
Theorem C88_yule_walker r a noise : solves_toeplitz -> ar_coeffs_from_autocorr solve_toeplitz r = Ok (a, noise) ->
  let p := (zlen r - 1)%Z in
  zlen a = p /\ (forall i, (1 <= i <= p)%Z -> val r i = sumz 1 (p + 1) (fun k => val a (k - 1) * val r (Z.abs (i - k)))) /\
  val r 0 = sumz 1 (p + 1) (fun k => val a (k - 1) * val r k) + noise.
Proof.
  intros HS H p. unfold ar_coeffs_from_autocorr in H. apply bind_ok in H as (a' & Ha & H). destruct r as [|r0 rest]; [discriminate|]. set (r := r0 :: rest) in *. cbv zeta in H. injection H as <- <-.
  assert (LR : (1 <= zlen r)%Z) by (unfold r; rewrite zlen_cons; pose proof (zlen_nonneg rest); lia).
  assert (L1 : zlen (pyslice r 1 (zlen r)) = p) by (rewrite zlen_pyslice_in by lia; auto).
  assert (L0 : zlen (pyslice r 0 (-1)) = p). { rewrite zlen_pyslice. unfold norm_idx. destruct (Z.ltb_spec (-1) 0); destruct (Z.ltb_spec 0 0); unfold p; lia. }
  destruct (HS _ _ _ (eq_trans L0 (eq_sym L1)) Ha) as [LA EQ]. rewrite L1 in LA, EQ. split; auto. split.
  - intros i Hi. specialize (EQ (i - 1)%Z). rewrite tail_val in EQ by lia. replace (i - 1 + 1)%Z with i in EQ by lia. rewrite <- EQ by lia. rewrite (sumz_shift 0 p 1). apply sumz_ext. intros k Hk. rewrite init_val by lia. replace (i - 1 - (k - 1))%Z with (i - k)%Z by lia. ring.
  - assert (val r 0 = r0) as -> by reflexivity. rewrite sum_combine by lia. rewrite L1. rewrite (sumz_shift 0 p 1). replace (0 + 1)%Z with 1%Z by lia.
    rewrite (sumz_ext 1 (p + 1) (fun k => val (pyslice r 1 (zlen r)) (k - 1) * val a' (k - 1)) (fun k => val a' (k - 1) * val r k)); [ring|].
    intros k Hk. rewrite tail_val by lia. replace (k - 1 + 1)%Z with k by lia. ring.
Qed.
(** The noise power is a value of the quadratic form of the autocorrelation, so it is not negative if that form is not; the
    square root in get_samples is then real. *)
Theorem C88_noise_power r a noise : solves_toeplitz -> ar_coeffs_from_autocorr solve_toeplitz r = Ok (a, noise) ->
  (forall v : Z -> R, 0 <= sumz 0 (zlen r) (fun i => sumz 0 (zlen r) (fun j => v i * v j * val r (Z.abs (i - j))))) -> 0 <= noise.
Proof.
  intros HS H PSD. destruct (@C88_yule_walker r a noise HS H) as (LA & Y1 & Y2). set (p := (zlen r - 1)%Z) in *. set (v := fun i : Z => if (i =? 0)%Z then 1 else - val a (i - 1)). specialize (PSD v).
  assert (0 <= p)%Z by (rewrite <- LA; apply zlen_nonneg). replace (zlen r) with (p + 1)%Z in PSD by lia.
  assert (IN : forall i, (0 <= i <= p)%Z -> sumz 0 (p + 1) (fun j => v i * v j * val r (Z.abs (i - j))) = if (i =? 0)%Z then noise else 0).
  { intros i Hi. rewrite (sumz_ext 0 (p + 1) _ (fun j => v i * (v j * val r (Z.abs (i - j))))) by (intros; ring). rewrite sumz_scale, sumz_first by lia. replace (0 + 1)%Z with 1%Z by lia.
    rewrite (sumz_ext 1 (p + 1) _ (fun k => - (val a (k - 1) * val r (Z.abs (i - k))))) by (intros k Hk; unfold v; replace (k =? 0)%Z with false by lia; ring). rewrite sumz_opp. replace (i - 0)%Z with i by lia. assert (v 0%Z = 1) as -> by reflexivity. destruct (Z.eqb_spec i 0) as [->|].
    - assert (v 0%Z = 1) as -> by reflexivity. change (Z.abs 0) with 0%Z. rewrite Y2. rewrite (sumz_ext 1 (p + 1) (fun k => val a (k - 1) * val r (Z.abs (0 - k))) (fun k => val a (k - 1) * val r k)); [ring|]. intros k Hk. replace (Z.abs (0 - k)) with k by lia. auto.
    - replace (Z.abs i) with i by lia. rewrite (Y1 i) by lia. ring. }
  rewrite (sumz_ext 0 (p + 1) _ (fun i => if (i =? 0)%Z then noise else 0)) in PSD by (intros i Hi; apply IN; lia). rewrite sumz_first in PSD by lia. rewrite sumz_zero in PSD by (intros k Hk; replace (k =? 0)%Z with false by lia; auto). cbn in PSD. lra.
Qed.
(** a channel without lags is refused when its first one is asked for, if the solver did not already refuse it *)
Theorem C88_empty : (forall c b, exists x, solve_toeplitz c b = Ok x) -> ar_coeffs_from_autocorr solve_toeplitz [] = Err IndexError.
Proof. intros H. unfold ar_coeffs_from_autocorr. destruct (H (pyslice (@nil R) 0 (-1)) (pyslice (@nil R) 1 (zlen (@nil R)))) as (x & ->). reflexivity. Qed.
End C88.

(* ------------------------------------------------------------------ C89 *)
Section C89.
Variable X : Type.
Variable resample_poly : X -> Z -> Z -> X.
Variable simplify_ratio : Z -> Z -> Z * Z.
Notation load := (load_audio_file resample_poly simplify_ratio).
(** what is assumed about simplify_ratio: the ratio stays the same *)
Definition keeps_ratio : Prop := forall a b, 0 < a -> 0 < b -> let '(u, d) := simplify_ratio a b in 0 < u /\ 0 < d /\ u * b = d * a.

(** C89.  A file with several channels is cut to the requested channels; at a higher sample rate each channel is resampled by
    a factor of exactly desired rate / file rate. *)
Theorem C89_loaded_partial channels audio_sr desired n : keeps_ratio -> 0 < desired <= audio_sr -> 0 < n <= zlen channels ->
  exists out, load (Multi channels) audio_sr (Some desired) (Some n) = Ok out /\ zlen out = n /\
    (audio_sr = desired -> forall c, 0 <= c < n -> out.[c] = channels.[c]) /\
    (desired < audio_sr -> exists up down, 0 < up /\ 0 < down /\ up * audio_sr = down * desired /\ forall c x, 0 <= c < n -> channels.[c] = Some x -> out.[c] = Some (resample_poly x up down)).
Proof.
  intros HK HD HN. unfold load_audio_file. destruct (Z.eqb_spec desired audio_sr) as [->|NE].
  - exists (pyslice channels 0 n). split; auto. split; [rewrite zlen_pyslice_in; lia|]. split; [|lia]. intros _ c Hc. rewrite zget_pyslice_in by lia. replace ((0 <=? c) && (c <? n - 0)) with true by lia. auto.
  - replace (desired <? audio_sr) with true by lia. cbn [passert bind]. replace (desired =? 0) with false by lia.
    destruct (if audio_sr mod desired =? 0 then (1, audio_sr / desired) else simplify_ratio desired audio_sr) as [up down] eqn:Q.
    assert (R : 0 < up /\ 0 < down /\ up * audio_sr = down * desired).
    { destruct (Z.eqb_spec (audio_sr mod desired) 0) as [M|M].
      - injection Q as <- <-. pose proof (Z.div_mod audio_sr desired ltac:(lia)) as D. rewrite M in D. nia.
      - specialize (HK desired audio_sr). rewrite Q in HK. apply HK; lia. }
    assert (G : exists down', mapM (fun ch => match (pyslice channels 0 n).[ch] with Some x => Ok (resample_poly x up down) | None => Err IndexError end) (zrange 0 n) = Ok down' /\ zlen down' = n /\ forall c x, 0 <= c < n -> channels.[c] = Some x -> down'.[c] = Some (resample_poly x up down)).
    { exists (map (fun x => resample_poly x up down) (pyslice channels 0 n)). split; [|split; [rewrite zlen_map, zlen_pyslice_in; lia|]].
      - assert (LP : zlen (pyslice channels 0 n) = n) by (rewrite zlen_pyslice_in; lia). revert LP. generalize (pyslice channels 0 n) as l. clear. intros l <-.
        assert (K : forall l2 l1, l = l1 ++ l2 -> mapM (fun ch => match l.[ch] with Some x => Ok (resample_poly x up down) | None => Err IndexError end) (zrange (zlen l1) (zlen l)) = Ok (map (fun x => resample_poly x up down) l2)).
        { induction l2 as [|x l2 IH]; intros l1 E.
          - rewrite app_nil_r in E. subst. rewrite zrange_empty by lia. auto.
          - assert (LL : zlen l = zlen l1 + (1 + zlen l2)) by (rewrite E, zlen_app, zlen_cons; auto). pose proof (zlen_nonneg l2). rewrite zrange_cons by lia. cbn [mapM]. assert (l.[zlen l1] = Some x) as -> by (rewrite E, zget_app, Z.ltb_irrefl, Z.sub_diag; auto). cbn [bind].
            specialize (IH (l1 ++ [x])). rewrite zlen_app in IH. change (zlen [x]) with 1 in IH. rewrite IH by (rewrite <- app_assoc; auto). auto. }
        apply (K l []). auto.
      - intros c x Hc Hx. rewrite zget_map, zget_pyslice_in by lia. replace ((0 <=? c) && (c <? n - 0)) with true by lia. replace (0 + c) with c by lia. rewrite Hx. auto. }
    destruct G as (down' & -> & L & G). cbn [bind]. exists down'. destruct down' as [|x0 r0]; [cbn in L; lia|]. split; auto. split; auto. split; [lia|]. intros _. exists up, down. intuition.
Qed.
(** a lower sample rate than the desired one is refused *)
Theorem C89_upsampling channels audio_sr desired nc : audio_sr < desired -> load (Multi channels) audio_sr (Some desired) nc = Err AssertionError.
Proof. intros H. unfold load_audio_file. replace (desired =? audio_sr) with false by lia. replace (desired <? audio_sr) with false by lia. auto. Qed.
(** Files with one channel are never loaded. *)
Theorem C89_mono_refuted x audio_sr desired nc : load (Mono x) audio_sr desired nc = Err AssertionError.
Proof. reflexivity. Qed.
(** The default desired_sr=None always raises. *)
Theorem C89_default_rate_refuted channels audio_sr nc : load (Multi channels) audio_sr None nc = Err TypeError.
Proof. reflexivity. Qed.
(** The default num_channels=None raises if the file must be resampled. *)
Theorem C89_default_channels_refuted channels audio_sr desired : 0 < desired < audio_sr -> load (Multi channels) audio_sr (Some desired) None = Err TypeError.
Proof. intros H. unfold load_audio_file. replace (desired =? audio_sr) with false by lia. replace (desired <? audio_sr) with true by lia. cbn [passert bind]. replace (desired =? 0) with false by lia. destruct (if audio_sr mod desired =? 0 then (1, audio_sr / desired) else simplify_ratio desired audio_sr). auto. Qed.
End C89.

(* ------------------------------------------------------------------ C90 *)
Section C90.
Local Open Scope R_scope.
Variables (d c : R).
Lemma cplx_eq (a b : cplx) : fst a = fst b -> snd a = snd b -> a = b.
Proof. destruct a, b; cbn; congruence. Qed.
Lemma one_minus_exp x : fst (csub (1, 0) (cexp (- (2 * x)))) * fst (csub (1, 0) (cexp (- (2 * x)))) + snd (csub (1, 0) (cexp (- (2 * x)))) * snd (csub (1, 0) (cexp (- (2 * x)))) = 4 * (sin x * sin x).
Proof. unfold csub, cexp. cbn [fst snd]. rewrite cos_neg, sin_neg. rewrite cos_2a_sin, sin_2a. pose proof (sin2_cos2 x) as T. unfold Rsqr in T. replace (cos x * cos x) with (1 - sin x * sin x) by lra. nra. Qed.

(** the wave number of a frequency that is not zero *)
Definition k_of (f : R) : R := 2 * PI * f / c.
(** the sum of both filtered microphone signals for a plane wave of unit amplitude at the main microphone that reaches the
    secondary microphone with a further path of [extra] metres (negative: earlier); in the convention of the module a delay by the path x
    is the factor exp(j k x) *)
Definition output (main secondary : cplx) (f extra : R) : cplx := cadd main (cmul secondary (cexp (k_of f * extra))).

Definition norm2 (a : cplx) : R := fst a * fst a + snd a * snd a.
Lemma norm2_one_minus x : norm2 (csub (1, 0) (cexp (2 * x))) = 4 * (sin x * sin x).
Proof. pose proof (one_minus_exp (- x)) as H. replace (- (2 * - x)) with (2 * x) in H by ring. rewrite sin_neg in H. unfold norm2. rewrite H. ring. Qed.
Lemma cexp_add a b : cexp (a + b) = cmul (cexp a) (cexp b).
Proof. unfold cexp, cmul. cbn [fst snd]. rewrite cos_plus, sin_plus. apply cplx_eq; cbn [fst snd]; ring. Qed.
Lemma conj_exp a : cconj (cexp (- a)) = cexp a.
Proof. unfold cexp, cconj. cbn [fst snd]. rewrite cos_neg, sin_neg. apply cplx_eq; cbn [fst snd]; ring. Qed.
Lemma conj_inv a : cconj (cinv a) = cinv (cconj a).
Proof. unfold cinv, cconj. cbv zeta. cbn [fst snd]. replace (- snd a * - snd a) with (snd a * snd a) by ring. apply cplx_eq; cbn [fst snd]; unfold Rdiv; ring. Qed.
Lemma conj_mul a b : cconj (cmul a b) = cmul (cconj a) (cconj b).
Proof. unfold cmul, cconj. cbn [fst snd]. apply cplx_eq; cbn [fst snd]; ring. Qed.
Lemma conj_sub a b : cconj (csub a b) = csub (cconj a) (cconj b).
Proof. unfold csub, cconj. cbn [fst snd]. apply cplx_eq; cbn [fst snd]; ring. Qed.
Lemma norm2_mul a b : norm2 (cmul a b) = norm2 a * norm2 b.
Proof. unfold norm2, cmul. cbn [fst snd]. ring. Qed.
Lemma norm2_inv a : norm2 a <> 0 -> norm2 (cinv a) = / norm2 a.
Proof. intros H. unfold norm2, cinv in *. cbv zeta. cbn [fst snd]. field. auto. Qed.
Lemma inv_mul a : norm2 a <> 0 -> cmul (cinv a) a = (1, 0).
Proof. intros H. unfold norm2, cinv, cmul in *. cbv zeta. cbn [fst snd]. apply cplx_eq; cbn [fst snd]; field; auto. Qed.

Lemma factors f : k_of f <> 0 -> main_factor d c false f = cinv (csub (1, 0) (cexp (2 * (k_of f * d)))) /\
  secondary_factor d c false f = copp (cmul (cinv (csub (1, 0) (cexp (2 * (k_of f * d))))) (cexp (k_of f * d))).
Proof.
  intros K. unfold main_factor, secondary_factor, both_mic_factor. assert (wave_num c f = k_of f) as -> by (unfold wave_num; cbv zeta; fold (k_of f); destruct (Req_EM_T (k_of f) 0); [contradiction|auto]).
  rewrite conj_mul, conj_inv, conj_sub, !conj_exp. replace (cconj (1, 0)) with ((1, 0) : cplx) by (unfold cconj; cbn [fst snd]; apply cplx_eq; cbn [fst snd]; ring). rewrite Rmult_assoc. auto.
Qed.
Lemma nth_response factor fs below i f : fs.[i] = Some f -> (freq_response factor fs below).[i] = Some (cscale (low_ramp fs below i) (factor (i =? 0)%Z f)).
Proof.
  intros H. unfold freq_response. rewrite zget_map. assert ((combine (zrange 0 (zlen fs)) fs).[i] = Some (i, f)) as ->; auto.
  assert (G : forall l a, l.[i] = Some f -> (combine (zrange a (a + zlen l)) l).[i] = Some ((a + i)%Z, f)).
  { clear. intros l. revert i. induction l as [|x l IH]; intros i a H; [rewrite zget_nil in H; discriminate|]. rewrite zlen_cons. pose proof (zlen_nonneg l). rewrite zrange_cons by lia. cbn [combine]. rewrite zget_cons in H. rewrite zget_cons. destruct (Z.eqb_spec i 0) as [->|]; [injection H as <-; f_equal; f_equal; lia|]. replace (a + (1 + zlen l))%Z with (a + 1 + zlen l)%Z by lia. rewrite (IH (i - 1)%Z (a + 1)%Z H). f_equal. f_equal. lia. }
  specialize (G fs 0%Z H). replace (0 + zlen fs)%Z with (zlen fs) in G by lia. rewrite G. f_equal.
Qed.

(** C90.  At every frequency but the first, with a spacing of the microphones that is not a multiple of half the wavelength: the
    output is [ramp] times 1 for a wave that comes from the side of the main microphone, 0 from the side of the secondary one, and
    in between the square of its size is sin^2((kd + k extra) / 2) / sin^2(kd), times ramp^2. *)
Theorem C90_pattern fs below i f : fs.[i] = Some f -> i <> 0%Z -> k_of f <> 0 -> sin (k_of f * d) <> 0 ->
  exists ramp m s, 0 <= ramp <= 1 /\ (below = None -> ramp = 1) /\ (forall limit, below = Some limit -> (forall j g, (i <= j)%Z -> fs.[j] = Some g -> limit < g) -> ramp = 1) /\
    (freq_response_main_mic d c fs below).[i] = Some m /\ (freq_response_secondary_mic d c fs below).[i] = Some s /\
    output m s f d = (ramp, 0) /\ output m s f (- d) = (0, 0) /\
    forall extra, norm2 (output m s f extra) = (ramp * ramp) * ((sin ((k_of f * d + k_of f * extra) / 2))² / (sin (k_of f * d))²).
Proof.
  intros Hf Hi K S. set (A := csub (1, 0) (cexp (2 * (k_of f * d)))). assert (NA : norm2 A <> 0) by (unfold A; rewrite norm2_one_minus; nra).
  destruct (factors K) as [E1 E2]. fold A in E1, E2. pose proof (zget_some_range _ _ Hf) as Ri.
  exists (low_ramp fs below i), (cscale (low_ramp fs below i) (main_factor d c false f)), (cscale (low_ramp fs below i) (secondary_factor d c false f)).
  set (r := low_ramp fs below i).
  assert (R : 0 <= r <= 1 /\ (below = None -> r = 1) /\ (forall limit, below = Some limit -> (forall j g, (i <= j)%Z -> fs.[j] = Some g -> limit < g) -> r = 1)).
  { unfold r, low_ramp. destruct below as [limit|]; [|split; [lra|split; [auto|discriminate]]]. cbv zeta. set (n := zlen (filter (fun g => if Rle_dec g limit then true else false) fs)). split; [|split; [discriminate|]].
    - destruct (Z.ltb_spec i n); [|lra]. replace (n =? 1)%Z with false by lia. assert (0 <= IZR i / IZR (n - 1) <= 1).
      { assert (0 < IZR (n - 1)) by (apply IZR_lt; lia). assert (0 <= IZR i <= IZR (n - 1)) by (split; apply IZR_le; lia). split; [apply Rmult_le_pos; [lra|left; apply Rinv_0_lt_compat; auto]|]. apply Rmult_le_reg_r with (IZR (n - 1)); auto. unfold Rdiv. rewrite Rmult_assoc, Rinv_l by lra. lra. }
      set (q := IZR i / IZR (n - 1)) in *. assert (0 <= q * q <= 1) by nra. replace (q ^ 4) with ((q * q) * (q * q)) by ring. nra.
    - intros l E HG. injection E as <-. replace (i <? n)%Z with false; auto. symmetry. apply Z.ltb_ge. unfold n. rewrite <- (firstn_skipn (Z.to_nat i) fs), filter_app, zlen_app.
      assert (filter (fun g => if Rle_dec g limit then true else false) (skipn (Z.to_nat i) fs) = []) as ->.
      { assert (Q : forall g, In g (skipn (Z.to_nat i) fs) -> limit < g). { intros g I. apply In_zget in I as (j & Rj & G). rewrite zget_skipn in G by lia. replace (j <? 0)%Z with false in G by lia. apply (HG (i + j)%Z); [lia|]. exact G. }
        revert Q. generalize (skipn (Z.to_nat i) fs) as l. induction l as [|g l IH]; intros Q; cbn [filter]; auto. destruct (Rle_dec g limit); [specialize (Q g (or_introl eq_refl)); lra|]. apply IH. intros; apply Q; right; auto. }
      rewrite zlen_nil. assert (LF : forall (P : R -> bool) l, (zlen (filter P l) <= zlen l)%Z) by (clear; intros P l; induction l as [|g l IH]; cbn [filter]; [lia|]; destruct (P g); rewrite ?zlen_cons; lia). specialize (LF (fun g => if Rle_dec g limit then true else false) (firstn (Z.to_nat i) fs)). rewrite zlen_firstn in LF. lia. }
  destruct R as (R1 & R2 & R3). split; [auto|]. split; [auto|]. split; [auto|]. 
  split; [unfold freq_response_main_mic; rewrite (nth_response _ _ _ _ Hf); replace (i =? 0)%Z with false by lia; auto|]. split; [unfold freq_response_secondary_mic; rewrite (nth_response _ _ _ _ Hf); replace (i =? 0)%Z with false by lia; auto|].
  assert (OUT : forall extra, output (cscale r (main_factor d c false f)) (cscale r (secondary_factor d c false f)) f extra = cscale r (cmul (cinv A) (csub (1, 0) (cexp (k_of f * d + k_of f * extra))))).
  { intros extra. unfold output. rewrite E1, E2, cexp_add. generalize (cinv A) as a, (cexp (k_of f * d)) as b, (cexp (k_of f * extra)) as e. intros a b e. unfold cadd, cscale, cmul, copp, csub. cbn [fst snd]. apply cplx_eq; cbn [fst snd]; ring. }
  split; [|split].
  - rewrite OUT. replace (k_of f * d + k_of f * d) with (2 * (k_of f * d)) by ring. fold A. rewrite inv_mul by auto. unfold cscale. cbn [fst snd]. apply cplx_eq; cbn [fst snd]; ring.
  - rewrite OUT. replace (k_of f * d + k_of f * - d) with 0 by ring. unfold cexp, csub, cmul, cscale. rewrite cos_0, sin_0. cbn [fst snd]. apply cplx_eq; cbn [fst snd]; ring.
  - intros extra. rewrite OUT. assert (NS : forall x a, norm2 (cscale x a) = (x * x) * norm2 a) by (intros; unfold norm2, cscale; cbn [fst snd]; ring). rewrite NS, norm2_mul, norm2_inv by auto. f_equal.
    replace (k_of f * d + k_of f * extra) with (2 * ((k_of f * d + k_of f * extra) / 2)) at 1 by field. rewrite norm2_one_minus. unfold A. rewrite norm2_one_minus. unfold Rsqr. field. auto.
Qed.
(** the first frequency is removed *)
Theorem C90_first fs below f : fs.[0] = Some f -> exists m s, (freq_response_main_mic d c fs below).[0] = Some m /\ (freq_response_secondary_mic d c fs below).[0] = Some s /\ forall extra, output m s f extra = (0, 0).
Proof.
  intros Hf. unfold freq_response_main_mic, freq_response_secondary_mic. rewrite !(nth_response _ _ _ _ Hf). eexists. eexists. split; [reflexivity|]. split; [reflexivity|]. intros extra. cbn [Z.eqb]. unfold output, main_factor, secondary_factor, cadd, cscale, cmul, copp, cconj. cbn [fst snd]. apply cplx_eq; cbn [fst snd]; ring.
Qed.
(** At frequency 0, where the formula would divide by zero, a tiny wave number is used, which avoids that for every realistic spacing (below 10^10 m). *)
Theorem C90_zero : 0 < d < 10000000000 -> csub (1, 0) (cexp (- (2 * wave_num c 0 * d))) <> (0, 0).
Proof.
  intros Hd E. unfold wave_num in E. cbv zeta in E. destruct (Req_EM_T (2 * PI * 0 / c) 0) as [_|N]; [|apply N; unfold Rdiv; ring].
  set (x := 1 / 10000000000 * d) in *. assert (X : 0 < x < 1) by (unfold x; lra). replace (2 * (1 / 10000000000) * d) with (2 * x) in E by (unfold x; ring).
  assert (norm2 (csub (1, 0) (cexp (- (2 * x)))) = 0) as Q by (rewrite E; unfold norm2; cbn [fst snd]; ring).
  replace (- (2 * x)) with (2 * - x) in Q by ring. rewrite norm2_one_minus, sin_neg in Q. pose proof (sin_gt_0 x ltac:(lra) ltac:(pose proof PI_4; pose proof PI2_1; lra)) as S. nra.
Qed.
(** If the spacing is a multiple of half the wavelength, both factors divide by zero. *)
Theorem C90_division_refuted f m : 0 < c -> 0 < d -> m <> 0%Z -> f = IZR m * c / (2 * d) -> csub (1, 0) (cexp (- (2 * wave_num c f * d))) = (0, 0).
Proof.
  intros Hc Hd Hm ->. assert (KK : k_of (IZR m * c / (2 * d)) = IZR m * PI / d) by (unfold k_of; field; lra). assert (IZR m <> 0) by (apply not_0_IZR; auto). pose proof PI_RGT_0.
  assert (wave_num c (IZR m * c / (2 * d)) = IZR m * PI / d) as ->. { unfold wave_num. cbv zeta. fold (k_of (IZR m * c / (2 * d))). rewrite KK. destruct (Req_EM_T (IZR m * PI / d) 0) as [E|]; auto. exfalso. apply (f_equal (fun v => v * d)) in E. unfold Rdiv in E. rewrite Rmult_assoc, Rinv_l in E by lra. nra. }
  replace (2 * (IZR m * PI / d) * d) with (2 * (IZR m * PI)) by (field; lra). assert (S : sin (IZR m * PI) = 0) by (apply sin_eq_0_1; exists m; auto). unfold csub, cexp. rewrite cos_neg, sin_neg, cos_2a_sin, sin_2a, S. apply cplx_eq; cbn [fst snd]; ring.
Qed.
End C90.
Section Centred.
Local Open Scope R_scope.
(** The output is as long as the input, and the filters are centred: sample t is the sum over the taps k of ir(k) x(t + order - k). *)
Theorem C90_centred order ir1 ir2 x1 x2 : (0 <= order)%Z -> zlen ir1 = (2 * order + 1)%Z -> zlen ir2 = (2 * order + 1)%Z -> zlen x1 = zlen x2 ->
  zlen (cardioid_signal order ir1 ir2 x1 x2) = zlen x1 /\
  forall t, (0 <= t < zlen x1)%Z -> (cardioid_signal order ir1 ir2 x1 x2).[t] =
    Some (sumz 0 (2 * order + 1) (fun k => val ir1 k * val x1 (t + order - k)) + sumz 0 (2 * order + 1) (fun k => val ir2 k * val x2 (t + order - k))).
Proof.
  intros HO L1 L2 LX. pose proof (zlen_nonneg x1). unfold cardioid_signal.
  assert (LC : forall x ir, zlen ir = (2 * order + 1)%Z -> zlen (convolve_full x ir) = (zlen x + 2 * order)%Z) by (intros x ir L; unfold convolve_full; rewrite zlen_map, zlen_zrange, L; pose proof (zlen_nonneg x); lia).
  assert (GC : forall x ir n, zlen ir = (2 * order + 1)%Z -> (0 <= n < zlen x + 2 * order)%Z -> (convolve_full x ir).[n] = Some (sumz 0 (2 * order + 1) (fun k => val ir k * val x (n - k)))).
  { intros x ir n L Hn. unfold convolve_full. rewrite zget_map, zget_zrange, L. replace ((0 <=? n)%Z && (n <? zlen x + (2 * order + 1) - 1 - 0)%Z)%bool with true by lia. cbn [option_map]. f_equal. unfold sumz. change rsum_ with rsum. f_equal. apply map_ext. intros k. replace (0 + n - k)%Z with (n - k)%Z by lia. unfold val. destruct (ir.[k]); destruct (x.[n - k]); ring. }
  assert (ZC : forall (a b : list R) i u v, a.[i] = Some u -> b.[i] = Some v -> (combine a b).[i] = Some (u, v)).
  { clear. induction a as [|x a IH]; intros b i u v A B; [rewrite zget_nil in A; discriminate|]. destruct b as [|y b]; [rewrite zget_nil in B; discriminate|]. cbn [combine]. rewrite zget_cons in A. rewrite zget_cons in B. rewrite zget_cons. destruct (i =? 0)%Z; [congruence|auto]. }
  assert (LL : zlen (map (fun p => fst p + snd p) (combine (convolve_full x1 ir1) (convolve_full x2 ir2))) = (zlen x1 + 2 * order)%Z).
  { rewrite zlen_map. unfold zlen at 1. rewrite combine_length. fold (zlen (convolve_full x1 ir1)). rewrite Nat2Z.inj_min. fold (zlen (convolve_full x1 ir1)) (zlen (convolve_full x2 ir2)). rewrite !LC by auto. lia. }
  split; [rewrite zlen_pyslice_in; lia|]. intros t Ht. rewrite zget_pyslice_in by lia. replace ((0 <=? t)%Z && (t <? order + zlen x1 - order)%Z)%bool with true by lia. rewrite zget_map. erewrite ZC; [|apply GC; [auto|lia]|apply GC; [auto|lia]]. cbn [option_map fst snd]. replace (order + t)%Z with (t + order)%Z by lia. auto.
Qed.
End Centred.

(* ------------------------------------------------------------------ concrete cases *)
Section Examples.
Local Open Scope R_scope.
Definition one_path : dict (dict (arr3 R)) := [("src"%string, [("mic"%string, mkArr 1 1 3 (fun _ _ k => IZR k + 1))])].
Example C87_ex : exists fp freqs F, get_freq_paths ["src"%string] ["mic"%string] one_path 4 8 = Ok (fp, freqs) /\ freqs.[1] = Some 2 /\ path_of fp "src"%string "mic"%string = Some F /\ at3 F 1 0 0 = (- 2, - 2).
Proof.
  assert (Hp : forall s m, In s ["src"%string] -> In m ["mic"%string] -> path_of one_path s m <> None) by (intros s m [<-|[]] [<-|[]]; discriminate).
  destruct (@C87_responses ["src"%string] ["mic"%string] one_path 4 8 ltac:(lia) ltac:(exists 2%Z; auto) ltac:(lra) Hp) as (fp & freqs & E & L & G & K & H). destruct (H "src"%string "mic"%string ltac:(left; auto) ltac:(left; auto)) as (path & F & P1 & P2 & D0 & D1 & D2 & RS).
  exists fp, freqs, F. split; auto. split; [rewrite G by (change (4 / 2)%Z with 2%Z; lia); f_equal; field|]. split; auto. injection P1 as <-. specialize (RS 1%Z 0%Z 0%Z 0%Z ltac:(change (4 / 2)%Z with 2%Z; lia)). cbv zeta in RS. destruct (at3 F 1 0 0) as [re im]. rewrite (G 1%Z) in RS by (change (4 / 2)%Z with 2%Z; lia).
  cbn [dim2 at3] in RS. replace (2 * PI * (1 * 8 / 4) / 8) with (PI / 2) in RS by field. change (Z.min 3 4) with 3%Z in RS. unfold sumz, rsum in RS. change (zrange 0 3) with [0; 1; 2]%Z in RS. cbn [map fold_right] in RS.
  replace (PI / 2 * (0 - 0)) with 0 in RS by ring. replace (PI / 2 * (0 - 1)) with (- (PI / 2)) in RS by ring. replace (PI / 2 * (0 - 2)) with (- PI) in RS by field. rewrite Rmult_0_r, !cos_neg, !sin_neg, cos_0, sin_0, cos_PI2, sin_PI2, cos_PI, sin_PI in RS. destruct RS. f_equal; lra.
Qed.
Example C87_refused_ex : get_freq_paths ["src"%string] ["mic"%string] one_path 5 8 = Err NotImplementedError /\ get_freq_paths ["src"%string] ["mic"%string] one_path 0 8 = Err ZeroDivisionError.
Proof. split; [apply C87_refused; exists 2%Z; reflexivity|apply C87_refused; reflexivity]. Qed.

(** a solver for systems with one unknown *)
Definition solve_one (c b : list R) : res (list R) := match c, b with [r0], [r1] => if Req_EM_T r0 0 then Err ValueError else Ok [r1 / r0] | _, _ => Err ValueError end.
Lemma solve_one_ok : solves_toeplitz solve_one.
Proof.
  intros c b x L E. unfold solve_one in E. destruct c as [|r0 [|? ?]]; [discriminate| |discriminate]. destruct b as [|r1 [|? ?]]; [discriminate| |discriminate]. destruct (Req_EM_T r0 0); [discriminate|]. injection E as <-.
  split; [reflexivity|]. intros i Hi. change (zlen [r0]) with 1%Z in *. change (zlen [r1]) with 1%Z in *. assert (i = 0)%Z as -> by lia. unfold sumz, rsum. change (zrange 0 1) with [0%Z]. cbn [map fold_right]. change (Z.abs (0 - 0)) with 0%Z. change (val [r0] 0) with r0. change (val [r1] 0) with r1. change (val [r1 / r0] 0) with (r1 / r0). field. auto.
Qed.
Example C88_ex : exists noise, ar_coeffs_from_autocorr solve_one [2; 1] = Ok ([1 / 2], noise) /\ noise = 3 / 2 /\ 0 <= noise.
Proof.
  unfold ar_coeffs_from_autocorr. change (pyslice [2; 1] 0 (-1)) with [2]. change (pyslice [2; 1] 1 (zlen [2; 1])) with [1]. assert (E0 : solve_one [2] [1] = Ok [1 / 2]) by (unfold solve_one; destruct (Req_EM_T 2 0); [lra|auto]). rewrite E0. cbn [bind]. eexists. split; [reflexivity|]. split; [unfold rsum; cbn; lra|].
  eapply (@C88_noise_power solve_one [2; 1]); [exact solve_one_ok|unfold ar_coeffs_from_autocorr; change (pyslice [2; 1] 0 (-1)) with [2]; change (pyslice [2; 1] 1 (zlen [2; 1])) with [1]; rewrite E0; reflexivity|].
  intros v. change (zlen [2; 1]) with 2%Z. unfold sumz, rsum. change (zrange 0 2) with [0; 1]%Z. cbn [map fold_right]. change (val [2; 1] (Z.abs (0 - 0))) with 2. change (val [2; 1] (Z.abs (0 - 1))) with 1. change (val [2; 1] (Z.abs (1 - 0))) with 1. change (val [2; 1] (Z.abs (1 - 1))) with 2. nra.
Qed.
Example C88_yule_walker_ex : exists a noise, ar_coeffs_from_autocorr solve_one [2; 1] = Ok (a, noise) /\ zlen a = 1%Z /\ 1 = val a 0 * 2.
Proof.
  destruct C88_ex as (noise & E & _). exists [1 / 2], noise. split; auto. destruct (C88_yule_walker _ solve_one_ok E) as (L & Y & _). split; auto. specialize (Y 1%Z ltac:(change (zlen [2; 1]) with 2%Z; lia)). unfold sumz, rsum in Y. match type of Y with context[zrange ?a ?b] => change (zrange a b) with [1%Z] in Y end. cbn [map fold_right] in Y. change (val [2; 1] 1) with 1 in Y. change (val [2; 1] (Z.abs (1 - 1))) with 2 in Y. change (1 - 1)%Z with 0%Z in Y. rewrite Rplus_0_r in Y. exact Y.
Qed.
Example C88_empty_ex : ar_coeffs_from_autocorr (fun _ _ => Ok []) [] = Err IndexError.
Proof. apply C88_empty. intros c b. exists []. reflexivity. Qed.
Example C88_recursion_ex : val (lfilter [1] (1 :: map Ropp [1 / 2]) [1; 0; 0]) 2 = 1 / 4.
Proof.
  pose proof (C88_recursion [1 / 2] [1; 0; 0]) as H. cbn [ar_coeffs_to_transfer_function] in H. destruct H as [L H]. set (y := lfilter _ _ _) in *.
  pose proof (H 0%Z ltac:(change (zlen [1; 0; 0]) with 3%Z; lia)) as H0. pose proof (H 1%Z ltac:(change (zlen [1; 0; 0]) with 3%Z; lia)) as H1. pose proof (H 2%Z ltac:(change (zlen [1; 0; 0]) with 3%Z; lia)) as H2. clear H. unfold sumz, rsum in H0, H1, H2. match type of H0 with context[zrange ?a ?b] => change (zrange a b) with [1%Z] in H0, H1, H2 end. cbn [map fold_right] in *.
  change (0 - 1)%Z with (-1)%Z in *. change (1 - 1)%Z with 0%Z in *. change (2 - 1)%Z with 1%Z in *. change (val y (-1)) with 0 in *. change (val [1 / 2] 0) with (1 / 2) in *. change (val [1; 0; 0] 0) with 1 in *. change (val [1; 0; 0] 1) with 0 in *. change (val [1; 0; 0] 2) with 0 in *. lra.
Qed.
End Examples.

(** resampling that only notes the factors *)
Definition note (x : list Z) (up down : Z) : list Z := up :: down :: x.
Example C89_ex : exists up down, load_audio_file note (fun a b => (a, b)) (Multi [[1]; [2]; [3]]) 48 (Some 32) (Some 2) = Ok [up :: down :: [1]; up :: down :: [2]] /\ 3 * up = 2 * down.
Proof.
  destruct (@C89_loaded_partial (list Z) note (fun a b => (a, b)) [[1]; [2]; [3]] 48 32 2) as (out & E & L & _ & H); [intros a b Ha Hb; lia|lia|split; [lia|cbn; lia]|]. destruct (H ltac:(lia)) as (up & down & _ & _ & R & G).
  exists up, down. split; [|lia]. rewrite E. f_equal. pose proof (G 0 [1] ltac:(lia) eq_refl) as G0. pose proof (G 1 [2] ltac:(lia) eq_refl) as G1. unfold note in *. destruct out as [|o0 [|o1 [|? ?]]].
  - rewrite zlen_nil in L; lia.
  - discriminate.
  - change (Some o0 = Some (up :: down :: [1])) in G0. change (Some o1 = Some (up :: down :: [2])) in G1. congruence.
  - rewrite !zlen_cons in L. match type of L with context[zlen ?l] => pose proof (zlen_nonneg l) end. lia.
Qed.
Example C89_equal_rate_ex : load_audio_file note (fun a b => (a, b)) (Multi [[1]; [2]; [3]]) 48 (Some 48) (Some 2) = Ok [[1]; [2]].
Proof. reflexivity. Qed.
Example C89_upsampling_ex : load_audio_file note (fun a b => (a, b)) (Multi [[1]; [2]]) 16 (Some 48) (Some 1) = Err AssertionError.
Proof. apply C89_upsampling. lia. Qed.
Example C89_default_channels_ex : load_audio_file note (fun a b => (a, b)) (Multi [[1]; [2]]) 48 (Some 16) None = Err TypeError.
Proof. apply C89_default_channels_refuted. lia. Qed.

Section Example90.
Local Open Scope R_scope.
(** spacing 1, speed 4, frequency 1: the wavelength is four times the spacing *)
Lemma k_ex : k_of 4 1 = PI / 2. Proof. unfold k_of. field. Qed.
Example C90_ex : exists m s, (freq_response_main_mic 1 4 [0; 1; 2] None).[1] = Some m /\ (freq_response_secondary_mic 1 4 [0; 1; 2] None).[1] = Some s /\
  output 4 m s 1 1 = (1, 0) /\ output 4 m s 1 (- (1)) = (0, 0) /\ norm2 (output 4 m s 1 0) = 1 / 2.
Proof.
  destruct (@C90_pattern 1 4 [0; 1; 2] None 1 1) as (r & m & s & _ & Q & _ & M & S & P1 & P2 & P3); [reflexivity|lia|rewrite k_ex; pose proof PI_RGT_0; lra|rewrite k_ex, Rmult_1_r, sin_PI2; lra|].
  rewrite Q in * by auto. exists m, s. do 4 (split; [auto|]). rewrite P3, k_ex, !Rmult_1_r, Rmult_0_r, sin_PI2, Rplus_0_r. replace (PI / 2 / 2) with (PI / 4) by field. rewrite sin_PI4. unfold Rsqr. replace (1 / sqrt 2 * (1 / sqrt 2)) with (1 / (sqrt 2 * sqrt 2)) by (field; intros E; assert (sqrt 2 * sqrt 2 = 2) by (apply sqrt_sqrt; lra); rewrite E in *; lra). rewrite sqrt_sqrt by lra. lra.
Qed.
Example C90_ramp_ex : exists ramp m, 0 <= ramp <= 1 /\ (freq_response_main_mic 1 4 [0; 1; 3] (Some (1 / 2))).[1] = Some m /\ ramp = 1.
Proof.
  destruct (@C90_pattern 1 4 [0; 1; 3] (Some (1 / 2)) 1 1) as (r & m & s & R & _ & Q & M & _); [reflexivity|lia|rewrite k_ex; pose proof PI_RGT_0; lra|rewrite k_ex, Rmult_1_r, sin_PI2; lra|].
  exists r, m. do 2 (split; [auto|]). apply (Q (1 / 2)); auto. intros j g Hj G. pose proof (zget_some_range _ _ G) as J. change (zlen [0; 1; 3]) with 3%Z in J. assert (j = 1 \/ j = 2)%Z as [-> | ->] by lia; cbn in G; injection G as <-; lra.
Qed.
Example C90_zero_ex : 0 < 4 / 100 < 10000000000.
Proof. lra. Qed.
Example C90_division_ex : csub (1, 0) (cexp (- (2 * wave_num 4 2 * 1))) = (0, 0).
Proof. apply (@C90_division_refuted 1 4 2 1); [lra|lra|lia|field]. Qed.
Example C90_centred_ex : (cardioid_signal 1 [1; 2; 3] [0; 1; 0] [5; 7] [11; 13]).[0] = Some (2 * 5 + 1 * 7 + 11).
Proof.
  destruct (@C90_centred 1 [1; 2; 3] [0; 1; 0] [5; 7] [11; 13]) as [L H]; [lia|reflexivity|reflexivity|reflexivity|]. rewrite H by (change (zlen [5; 7]) with 2%Z; lia). f_equal. unfold sumz, rsum. change (zrange 0 (2 * 1 + 1)) with [0; 1; 2]%Z. cbn [map fold_right]. change (val [1; 2; 3] 0) with 1. change (val [1; 2; 3] 1) with 2. change (val [1; 2; 3] 2) with 3. change (val [0; 1; 0] 0) with 0. change (val [0; 1; 0] 1) with 1. change (val [0; 1; 0] 2) with 0. change (0 + 1 - 0)%Z with 1%Z. change (0 + 1 - 1)%Z with 0%Z. change (0 + 1 - 2)%Z with (-1)%Z. change (val [5; 7] 1) with 7. change (val [5; 7] 0) with 5. change (val [5; 7] (-1)) with 0. change (val [11; 13] 1) with 13. change (val [11; 13] 0) with 11. change (val [11; 13] (-1)) with 0. ring.
Qed.
End Example90.

Print Assumptions C87_responses.
Print Assumptions C87_refused.
Print Assumptions C88_yule_walker.
Print Assumptions C88_noise_power.
Print Assumptions C88_recursion.
Print Assumptions C88_empty.
Print Assumptions C89_loaded_partial.
Print Assumptions C89_upsampling.
Print Assumptions C89_mono_refuted.
Print Assumptions C89_default_rate_refuted.
Print Assumptions C89_default_channels_refuted.
Print Assumptions C90_pattern.
Print Assumptions C90_first.
Print Assumptions C90_division_refuted.
Print Assumptions C90_zero.
Print Assumptions C90_centred.
