(** C84: sorting of sound field values for an image.  C85: audio files.  C86: legends. *)
Require Import Verif.PyBase Verif.PyLemmas Verif.PyStr Verif.PyStrLemmas Verif.ArrayProofs Verif.PlotModel.
From Coq Require Import Ascii Reals Lra Permutation Sorted.
Set Implicit Arguments.
Local Open Scope string_scope.
Local Open Scope list_scope.
Local Open Scope Z_scope.
Notation "x .[ i ]" := (zget x i) (at level 2, left associativity).

(* ------------------------------------------------------------------ lists *)
Lemma mapM_total {A B} (f : A -> res B) l : (forall x, In x l -> exists y, f x = Ok y) -> exists l', mapM f l = Ok l'.
Proof.
  induction l as [|x l IH]; intros H; [exists []; auto|]. destruct (H x) as [y Hy]; [left; auto|]. destruct IH as [l' Hl]; [intros z Hz; apply H; right; auto|].
  exists (y :: l'). cbn [mapM]. rewrite Hy. cbn [bind]. rewrite Hl. auto.
Qed.
Lemma mapM_zlen {A B} (f : A -> res B) l : forall l', mapM f l = Ok l' -> zlen l' = zlen l.
Proof.
  induction l as [|x l IH]; cbn [mapM]; intros l' H; [injection H as <-; auto|]. apply bind_ok in H as (y & _ & H). apply bind_ok in H as (ys & Hs & H). injection H as <-. rewrite !zlen_cons. rewrite (IH _ Hs). auto.
Qed.
Lemma mapM_zget {A B} (f : A -> res B) l : forall l' i x, mapM f l = Ok l' -> l.[i] = Some x -> exists y, l'.[i] = Some y /\ f x = Ok y.
Proof.
  induction l as [|x l IH]; cbn [mapM]; intros l' i z H; [rewrite zget_nil; discriminate|]. apply bind_ok in H as (y & Hy & H). apply bind_ok in H as (ys & Hs & H). injection H as <-.
  rewrite !zget_cons. destruct (i =? 0); [intros E; injection E as <-; eauto|]. intros G. eapply IH; eauto.
Qed.
Lemma mapM_zget_back {A B} (f : A -> res B) l l' i y : mapM f l = Ok l' -> l'.[i] = Some y -> exists x, l.[i] = Some x /\ f x = Ok y.
Proof.
  intros H G. pose proof (zget_some_range _ _ G) as R. rewrite (mapM_zlen _ _ H) in R. destruct (zget_in_range _ R) as [x Hx]. exists x. split; auto.
  destruct (mapM_zget _ _ _ H Hx) as (y' & G' & E). congruence.
Qed.
Lemma sorted_same l : forall l', StronglySorted Z.lt l -> StronglySorted Z.lt l' -> (forall x, In x l <-> In x l') -> l = l'.
Proof.
  induction l as [|x l IH]; intros l' S S' H.
  - destruct l' as [|y l']; auto. exfalso. apply (H y). left; auto.
  - destruct l' as [|y l']; [exfalso; apply (H x); left; auto|]. inversion S as [|? ? S1 F1]; subst. inversion S' as [|? ? S2 F2]; subst. rewrite Forall_forall in F1, F2.
    assert (x = y) as ->.
    { destruct (proj1 (H x) (or_introl eq_refl)) as [E|I1]; auto. destruct (proj2 (H y) (or_introl eq_refl)) as [E|I2]; auto. specialize (F1 _ I2). specialize (F2 _ I1). lia. }
    f_equal. apply IH; auto. intros z. split; intros I.
    + destruct (proj1 (H z) (or_intror I)) as [->|]; auto. exfalso. specialize (F1 _ I). lia.
    + destruct (proj2 (H z) (or_intror I)) as [->|]; auto. exfalso. specialize (F2 _ I). lia.
Qed.
Lemma sorted_of_get (l : list Z) : (forall i j a b, i < j -> l.[i] = Some a -> l.[j] = Some b -> a < b) -> StronglySorted Z.lt l.
Proof.
  induction l as [|x l IH]; intros H; constructor.
  - apply IH. intros i j a b L A B. apply (H (i + 1) (j + 1) a b); [lia| |]; rewrite zget_cons; pose proof (zget_some_range _ _ A); pose proof (zget_some_range _ _ B).
    + replace (i + 1 =? 0) with false by lia. replace (i + 1 - 1) with i by lia. auto.
    + replace (j + 1 =? 0) with false by lia. replace (j + 1 - 1) with j by lia. auto.
  - apply Forall_forall. intros y Hy. apply In_zget in Hy as (j & R & G). apply (H 0 (j + 1) x y); [lia| |]; rewrite zget_cons; auto. replace (j + 1 =? 0) with false by lia. replace (j + 1 - 1) with j by lia. auto.
Qed.
Lemma In_insert x l y : In y (insert_new x l) <-> y = x \/ In y l.
Proof.
  induction l as [|z l IH]; cbn [insert_new]; [cbn; intuition|]. destruct (Z.ltb_spec x z); [cbn; intuition|]. destruct (Z.eqb_spec x z); [subst; cbn; intuition|]. cbn [In]. rewrite IH. intuition.
Qed.
Lemma sorted_insert x l : StronglySorted Z.lt l -> StronglySorted Z.lt (insert_new x l).
Proof.
  induction 1 as [|y l S IH F]; cbn [insert_new]; [repeat constructor|]. rewrite Forall_forall in F. destruct (Z.ltb_spec x y).
  - constructor; [constructor; auto; apply Forall_forall; auto|]. apply Forall_forall. intros z [<-|I]; [auto|]. specialize (F _ I). lia.
  - destruct (Z.eqb_spec x y); [constructor; auto; apply Forall_forall; auto|]. constructor; auto. apply Forall_forall. intros z I. apply In_insert in I as [->|I]; [lia|auto].
Qed.
Lemma np_unique_sorted l : StronglySorted Z.lt (np_unique l).
Proof. induction l; cbn; [constructor|apply sorted_insert; auto]. Qed.
Lemma In_np_unique l x : In x (np_unique l) <-> In x l.
Proof. induction l; cbn [np_unique fold_right]; [intuition|]. fold (np_unique l). rewrite In_insert, IHl. cbn. intuition. Qed.

Lemma zget_rev {X} (l : list X) : forall i, (rev l).[i] = if ((0 <=? i) && (i <? zlen l))%bool then l.[zlen l - 1 - i] else None.
Proof.
  induction l as [|x l IH]; intros i.
  - cbn [rev]. rewrite !zget_nil. destruct (_ && _)%bool; auto.
  - cbn [rev]. rewrite zget_app. assert (zlen (rev l) = zlen l) as R by (unfold zlen; rewrite rev_length; auto). rewrite R, zlen_cons, IH. pose proof (zlen_nonneg l). rewrite !zget_cons, zget_nil. destruct (Z.ltb_spec i (zlen l)).
    + destruct (Z.leb_spec 0 i); cbn [andb]; auto. replace (i <? zlen l) with true by lia. replace (i <? 1 + zlen l) with true by lia. replace (1 + zlen l - 1 - i =? 0) with false by lia. f_equal. lia.
    + replace (0 <=? i) with true by lia. cbn [andb]. destruct (Z.ltb_spec i (1 + zlen l)).
      * replace (i - zlen l =? 0) with true by lia. replace (1 + zlen l - 1 - i =? 0) with true by lia. auto.
      * replace (i - zlen l =? 0) with false by lia. auto.
Qed.
Lemma NoDup_zget {A} (l : list A) i j x : NoDup l -> l.[i] = Some x -> l.[j] = Some x -> i = j.
Proof.
  intros N A1 A2. pose proof (zget_some_range _ _ A1). pose proof (zget_some_range _ _ A2). rewrite zget_nth in A1, A2 by lia.
  assert (Z.to_nat i = Z.to_nat j); [|lia]. apply (proj1 (NoDup_nth_error l) N); [unfold zlen in *; lia|congruence].
Qed.
(* ------------------------------------------------------------------ C84 *)
Section C84.
Variable u : Z.
Hypothesis u_pos : 0 < u.
(** r is the multiple of u nearest to p, the even one of two *)
Definition nearest (r p : Z) : Prop := exists q, r = q * u /\ 2 * Z.abs (p - r) <= u /\ (2 * Z.abs (p - r) = u -> Z.Even q).

Lemma np_round_nearest p : nearest (np_round u p) p.
Proof.
  unfold np_round. cbv zeta. pose proof (Z.div_mod p u) as D. pose proof (Z.mod_pos_bound p u). set (q := p / u) in *. set (r := p mod u) in *.
  destruct (Z.ltb_spec (2 * r) u); [exists q; split; [auto|split; nia]|]. destruct (Z.ltb_spec u (2 * r)); [exists (q + 1); split; [auto|split; nia]|].
  destruct (Z.even q) eqn:Q.
  - exists q. split; [auto|]. split; [nia|]. intros _. apply Z.even_spec; auto.
  - exists (q + 1). split; [auto|]. split; [nia|]. intros _. apply Z.even_spec. rewrite Z.even_add, Q. auto.
Qed.
Lemma nearest_mono r p r' p' : nearest r p -> nearest r' p' -> p <= p' -> r <= r'.
Proof.
  intros (q & -> & A & B) (q' & -> & A' & B') L. destruct (Z.le_gt_cases q q') as [|G]; [nia|]. exfalso.
  assert (q' + 1 <= q) by lia. assert (E : q = q' + 1) by nia. subst q. assert (p = p') by nia. subst p'. assert (2 * Z.abs (p - q' * u) = u) as C by nia. assert (2 * Z.abs (p - (q' + 1) * u) = u) as C' by nia.
  apply B in C'. apply B' in C. destruct C as [m ->]. destruct C' as [k K]. lia.
Qed.
Lemma nearest_fun r r' p : nearest r p -> nearest r' p -> r = r'.
Proof. intros A B. pose proof (nearest_mono A B (Z.le_refl p)). pose proof (nearest_mono B A (Z.le_refl p)). lia. Qed.
Lemma round_eq r p : nearest r p -> np_round u p = r.
Proof. intros H. eapply nearest_fun; eauto. apply np_round_nearest. Qed.

Variable argsort : list Z -> list Z.
(** what is assumed about numpy's argsort: the result lists all indices once, in an order in which the values do not decrease *)
Definition sorts : Prop := forall l, Permutation (argsort l) (zrange 0 (zlen l)) /\
  forall a b i j v w, a < b -> (argsort l).[a] = Some i -> (argsort l).[b] = Some j -> l.[i] = Some v -> l.[j] = Some w -> v <= w.
Variable close : Z -> Z -> bool.
Variable S : Type.

Section Grid.
Variables (pos : list (Z * Z)) (zs : option (list Z)) (sig : list S) (xs ys : list Z).
(** position n lies in row i and column j of the grid with the coordinates xs and ys *)
Definition in_cell (n i j : Z) : Prop :=
  exists px py x y, pos.[n] = Some (px, py) /\ xs.[j] = Some x /\ ys.[i] = Some y /\ nearest x px /\ nearest y py.
(** the positions form a rectangular grid in some order: columns differ, rows differ by two units of rounding or more, and
    every cell holds exactly one position *)
Record rectangular : Prop := {
  columns : forall j j' x x', j < j' -> xs.[j] = Some x -> xs.[j'] = Some x' -> x < x';
  rows : forall i i' y y', i < i' -> ys.[i] = Some y -> ys.[i'] = Some y' -> y + 2 * u <= y';
  not_empty : xs <> [] /\ ys <> [];
  covered : forall n p, pos.[n] = Some p -> exists i j, in_cell n i j;
  filled : forall i j, 0 <= i < zlen ys -> 0 <= j < zlen xs -> exists n, in_cell n i j;
  single : forall n n' i j, in_cell n i j -> in_cell n' i j -> n = n' }.
(** positions with three coordinates lie in one plane *)
Definition one_plane : Prop := match zs with None => True | Some l => exists z0, l.[0] = Some z0 /\ forall z, In z l -> close z z0 = true end.

Lemma rounded_ys : rectangular -> np_unique (map (fun p => np_round u (snd p)) pos) = ys.
Proof.
  intros G. apply sorted_same; [apply np_unique_sorted|apply sorted_of_get; intros i j a b L A B; pose proof (rows G L A B); lia|]. intros y. rewrite In_np_unique, in_map_iff. split.
  - intros (p & <- & I). apply In_zget in I as (n & _ & I). destruct (covered G _ I) as (i & j & px & py & x & y & E & _ & Y & _ & N). rewrite I in E. injection E as ->. cbn [snd]. rewrite (round_eq N). eapply zget_In; eauto.
  - intros I. apply In_zget in I as (i & R & I). assert (0 < zlen xs) by (destruct G as [_ _ [NE _] _ _ _]; destruct xs; [congruence|rewrite zlen_cons; pose proof (zlen_nonneg l); lia]).
    destruct (@filled G i 0) as (n & px & py & x & y' & E & _ & Y & _ & N); [lia|lia|]. exists (px, py). rewrite I in Y. injection Y as <-. split; [cbn; apply round_eq; auto|eapply zget_In; eauto].
Qed.
Lemma rounded_xs : rectangular -> np_unique (map (fun p => np_round u (fst p)) pos) = xs.
Proof.
  intros G. apply sorted_same; [apply np_unique_sorted|apply sorted_of_get; exact (columns G)|]. intros x. rewrite In_np_unique, in_map_iff. split.
  - intros (p & <- & I). apply In_zget in I as (n & _ & I). destruct (covered G _ I) as (i & j & px & py & x & y & E & X & _ & N & _). rewrite I in E. injection E as ->. cbn [fst]. rewrite (round_eq N). eapply zget_In; eauto.
  - intros I. apply In_zget in I as (j & R & I). assert (0 < zlen ys) by (destruct G as [_ _ [_ NE] _ _ _]; destruct ys; [congruence|rewrite zlen_cons; pose proof (zlen_nonneg l); lia]).
    destruct (@filled G 0 j) as (n & px & py & x' & y & E & X & _ & N & _); [lia|lia|]. exists (px, py). rewrite I in X. injection X as <-. split; [cbn; apply round_eq; auto|eapply zget_In; eauto].
Qed.
Lemma row_members (G : rectangular) i y : ys.[i] = Some y -> forall n,
  In n (filter (fun n => match pos.[n] with Some p => Z.abs (snd p - y) <? u | None => false end) (zrange 0 (zlen pos))) <-> exists j, in_cell n i j.
Proof.
  intros Y n. rewrite filter_In, In_zrange. split.
  - intros [R H]. destruct (pos.[n]) as [p|] eqn:P; [|discriminate]. destruct (covered G _ P) as (i' & j & C). exists j. pose proof C as (px & py & x & y' & E & X & Y' & N & M). rewrite P in E. injection E as ->. cbn [snd] in H.
    assert (i' = i) as <-; auto. destruct M as (q & -> & M & _). destruct (Z.lt_trichotomy i i') as [L|[E|L]]; [|auto|].
    + pose proof (rows G L Y Y'). lia.
    + pose proof (rows G L Y' Y). lia.
  - intros (j & px & py & x & y' & E & X & Y' & N & M). pose proof (zget_some_range _ _ E). split; [lia|]. rewrite E. rewrite Y in Y'. injection Y' as <-. destruct M as (q & -> & M & _). cbn [snd]. lia.
Qed.

Lemma sort_row_ok (G : rectangular) (HA : sorts) i y : ys.[i] = Some y -> exists l, sort_row u argsort pos (zlen xs) y = Ok l /\ zlen l = zlen xs /\ forall n j, l.[j] = Some n <-> in_cell n i j.
Proof.
  intros Y. unfold sort_row. cbv zeta. pose proof (row_members G _ Y) as RM. set (R := filter _ (zrange 0 (zlen pos))) in *.
  assert (ND : NoDup R) by (apply NoDup_filter, NoDup_zrange).
  destruct (@mapM_total _ _ (fun n => p <- at_idx pos n ;; Ok (fst p)) R) as [px Hpx].
  { intros n Hn. apply RM in Hn as (j & a & b & x & y' & E & _). unfold at_idx. rewrite E. cbn [bind]. eauto. }
  rewrite Hpx. cbn [bind]. pose proof (mapM_zlen _ _ Hpx) as Lp. destruct (HA px) as [PA SA].
  destruct (@mapM_total _ _ (at_idx R) (argsort px)) as [P HP].
  { intros k Hk. apply (Permutation_in _ PA), In_zrange in Hk. rewrite Lp in Hk. destruct (zget_in_range _ Hk) as [n Hn]. unfold at_idx. rewrite Hn. eauto. }
  rewrite HP. cbn [bind]. pose proof (mapM_zlen _ _ HP) as LP.
  (* P holds the members of R once each *)
  assert (NA : NoDup (argsort px)) by (eapply Permutation_NoDup; [apply Permutation_sym; exact PA|apply NoDup_zrange]).
  assert (GP : forall a n, P.[a] = Some n -> exists k v, (argsort px).[a] = Some k /\ R.[k] = Some n /\ px.[k] = Some v /\ exists w, pos.[n] = Some (v, w)).
  { intros a n Hn. destruct (mapM_zget_back _ _ _ HP Hn) as (k & Hk & E). unfold at_idx in E. destruct (R.[k]) as [n'|] eqn:Rk; [|discriminate]. injection E as ->. destruct (mapM_zget _ _ _ Hpx Rk) as (v & V & E). exists k, v. split; auto. split; auto. split; auto.
    unfold at_idx in E. destruct (pos.[n]) as [[v' w]|] eqn:Q; [|discriminate]. cbn in E. injection E as ->. eauto. }
  assert (IP : forall n, In n P <-> In n R).
  { intros n. split.
    - intros I. apply In_zget in I as (a & _ & I). destruct (GP _ _ I) as (k & v & _ & E & _). eapply zget_In; eauto.
    - intros I. apply In_zget in I as (k & Rk & I). rewrite <- Lp in Rk. apply In_zrange in Rk. apply (Permutation_in _ (Permutation_sym PA)) in Rk. apply In_zget in Rk as (a & _ & A). destruct (mapM_zget _ _ _ HP A) as (n' & N & E). unfold at_idx in E. rewrite I in E. injection E as ->. eapply zget_In; eauto. }
  set (cx := fun n => match pos.[n] with Some p => np_round u (fst p) | None => 0 end).
  assert (CX : forall n j, in_cell n i j -> exists x, xs.[j] = Some x /\ cx n = x).
  { intros n j (a & b & x & y' & E & X & _ & N & _). exists x. split; auto. unfold cx. rewrite E. cbn. apply round_eq; auto. }
  assert (SX : StronglySorted Z.lt (map cx P)).
  { apply sorted_of_get. intros a b v w L A B. rewrite zget_map in A, B. destruct (P.[a]) as [n|] eqn:Pa; [|discriminate]. destruct (P.[b]) as [m|] eqn:Pb; [|discriminate]. injection A as <-. injection B as <-.
    destruct (GP _ _ Pa) as (k & va & Ak & Rk & Vk & wa & Ea). destruct (GP _ _ Pb) as (k' & vb & Ak' & Rk' & Vk' & wb & Eb). pose proof (SA a b k k' va vb L Ak Ak' Vk Vk') as LE.
    assert (LX : cx n <= cx m) by (unfold cx; rewrite Ea, Eb; cbn [fst]; eapply nearest_mono; [apply np_round_nearest|apply np_round_nearest|auto]).
    destruct (Z.eq_dec (cx n) (cx m)) as [EQ|]; [exfalso|lia].
    destruct (proj1 (RM n) (zget_In _ _ Rk)) as (j & Cj). destruct (proj1 (RM m) (zget_In _ _ Rk')) as (j' & Cj'). destruct (CX _ _ Cj) as (x & X & Ex). destruct (CX _ _ Cj') as (x' & X' & Ex').
    assert (j = j') as <-. { destruct (Z.lt_trichotomy j j') as [Q|[Q|Q]]; [pose proof (columns G Q X X'); lia|auto|pose proof (columns G Q X' X); lia]. }
    pose proof (single G Cj Cj') as EN. subst m. pose proof (NoDup_zget _ _ ND Rk Rk') as EK. subst k'. pose proof (NoDup_zget _ _ NA Ak Ak'). lia. }
  assert (EX : map cx P = xs).
  { apply sorted_same; [auto|apply sorted_of_get; exact (columns G)|]. intros x. rewrite in_map_iff. split.
    - intros (n & <- & I). apply IP, RM in I as (j & C). destruct (CX _ _ C) as (x & X & ->). eapply zget_In; eauto.
    - intros I. apply In_zget in I as (j & Rj & X). pose proof (zget_some_range _ _ Y). destruct (@filled G i j) as [n C]; [lia|lia|]. exists n. split; [destruct (CX _ _ C) as (x' & X' & ->); congruence|]. apply IP, RM. eauto. }
  assert (LX : zlen P = zlen xs) by (rewrite <- EX, zlen_map; auto). rewrite LX, Z.eqb_refl. exists P. split; auto. split; auto. intros n j. split.
  - intros Hn. pose proof (zget_In _ _ Hn) as I. apply IP, RM in I as (j' & C). destruct (CX _ _ C) as (x & X & E). assert (xs.[j] = Some x) as X' by (rewrite <- EX, zget_map, Hn; cbn; congruence).
    assert (j = j') as ->; auto. destruct (Z.lt_trichotomy j j') as [Q|[Q|Q]]; [pose proof (columns G Q X' X); lia|auto|pose proof (columns G Q X X'); lia].
  - intros C. assert (I : In n P) by (apply IP, RM; eauto). apply In_zget in I as (j' & _ & Hn). assert (j' = j) as <-; auto. destruct (CX _ _ C) as (x & X & E). assert (xs.[j'] = Some x) as X' by (rewrite <- EX, zget_map, Hn; cbn; congruence).
    destruct (Z.lt_trichotomy j j') as [Q|[Q|Q]]; [pose proof (columns G Q X X'); lia|auto|pose proof (columns G Q X' X); lia].
Qed.

(** C84.  The number of pixels: one row for each y and one column for each x of the grid *)
Theorem C84_pixels : rectangular -> get_num_pixels u pos = (zlen ys, zlen xs).
Proof. intros G. unfold get_num_pixels. rewrite (rounded_ys G), (rounded_xs G). reflexivity. Qed.
(** C84.  For positions that form a rectangular grid, in any order, row i and column j of the sorted positions hold the
    position of that cell; the signals have the same columns, and their rows are in reverse order. *)
Theorem C84_sorted_partial : rectangular -> sorts -> one_plane -> zlen sig = zlen pos ->
  exists P V, sort_for_imshow u argsort close pos zs sig = Ok (P, V) /\ zlen P = zlen ys /\ zlen V = zlen ys /\
    (forall row, In row P -> zlen row = zlen xs) /\ (forall row, In row V -> zlen row = zlen xs) /\
    forall n i j, in_cell n i j -> exists p v rp rv, pos.[n] = Some p /\ sig.[n] = Some v /\
      P.[i] = Some rp /\ rp.[j] = Some p /\ V.[zlen ys - 1 - i] = Some rv /\ rv.[j] = Some v.
Proof.
  intros G HA HP HL. unfold sort_for_imshow. assert (match zs with None => Ok tt | Some l => match l with [] => Err IndexError | z0 :: _ => passert (forallb (fun z => close z z0) l) end end = Ok tt) as ->.
  { unfold one_plane in HP. destruct zs as [l|]; auto. destruct HP as (z0 & Z0 & HP). destruct l as [|z l]; [rewrite zget_nil in Z0; discriminate|]. rewrite zget_cons in Z0. cbn in Z0. injection Z0 as ->. unfold passert. replace (forallb _ _) with true; auto. symmetry. apply forallb_forall. auto. }
  cbn [bind]. unfold get_num_pixels. rewrite (rounded_ys G), (rounded_xs G).
  destruct (@mapM_total _ _ (sort_row u argsort pos (zlen xs)) ys) as [SI HSI].
  { intros y I. apply In_zget in I as (i & _ & Y). destruct (sort_row_ok G HA _ Y) as (l & E & _). eauto. }
  rewrite HSI. cbn [bind].
  assert (GS : forall i row, SI.[i] = Some row -> zlen row = zlen xs /\ forall n j, row.[j] = Some n <-> in_cell n i j).
  { intros i row H. destruct (mapM_zget_back _ _ _ HSI H) as (y & Y & E). destruct (sort_row_ok G HA _ Y) as (l & E' & L1 & L2). rewrite E in E'. injection E' as ->. auto. }
  assert (T : forall {X} (l : list X), zlen l = zlen pos -> exists M, mapM (mapM (at_idx l)) SI = Ok M).
  { intros X l LL. apply mapM_total. intros row I. apply In_zget in I as (i & _ & I). destruct (GS _ _ I) as [_ GS']. apply mapM_total. intros n Hn. apply In_zget in Hn as (j & _ & Hn). apply GS' in Hn as (px & py & x & y & E & _).
    pose proof (zget_some_range _ _ E) as R. rewrite <- LL in R. destruct (zget_in_range _ R) as [v V]. unfold at_idx. rewrite V. eauto. }
  destruct (T _ pos eq_refl) as [P EP]. destruct (T _ sig HL) as [V EV]. rewrite EP. cbn [bind]. rewrite EV. cbn [bind]. exists P, (rev V). split; auto.
  pose proof (mapM_zlen _ _ HSI) as LS. pose proof (mapM_zlen _ _ EP) as LP. pose proof (mapM_zlen _ _ EV) as LV.
  assert (RL : zlen (rev V) = zlen V) by (unfold zlen; rewrite rev_length; auto). split; [lia|]. split; [lia|].
  assert (RowL : forall {X} (l : list X) M row, mapM (mapM (at_idx l)) SI = Ok M -> In row M -> zlen row = zlen xs).
  { intros X l M row E I. apply In_zget in I as (i & _ & I). destruct (mapM_zget_back _ _ _ E I) as (r & R & E'). rewrite (mapM_zlen _ _ E'). destruct (GS _ _ R); auto. }
  split; [intros row I; eapply RowL; eauto|]. split; [intros row I; apply in_rev in I; eapply RowL; eauto|].
  intros n i j C. assert (exists row, SI.[i] = Some row) as (row & Hrow). { apply zget_in_range. destruct C as (px & py & x & y & _ & _ & Y & _). apply zget_some_range in Y. lia. }
  destruct (GS _ _ Hrow) as [_ GS']. apply GS' in C as Hj.
  destruct (mapM_zget _ _ _ EP Hrow) as (rp & RP1 & RP2). destruct (mapM_zget _ _ _ EV Hrow) as (rv & RV1 & RV2).
  destruct (mapM_zget _ _ _ RP2 Hj) as (p & P1 & P2). destruct (mapM_zget _ _ _ RV2 Hj) as (v & V1 & V2). unfold at_idx in P2, V2. destruct (pos.[n]) eqn:Ep; [|discriminate]. destruct (sig.[n]) eqn:Es; [|discriminate]. injection P2 as ->. injection V2 as ->.
  exists p, v, rp, rv. do 4 (split; [auto|]). split; [|auto].
  pose proof (zget_some_range _ _ RV1). rewrite zget_rev. replace ((0 <=? zlen ys - 1 - i) && (zlen ys - 1 - i <? zlen V))%bool with true by lia. rewrite <- RV1. f_equal. lia.
Qed.
(** C84.  Every position needs a value *)
Theorem C84_too_few : rectangular -> sorts -> one_plane -> zlen sig < zlen pos -> sort_for_imshow u argsort close pos zs sig = Err IndexError.
Proof.
  intros G HA HP HL. unfold sort_for_imshow. assert (match zs with None => Ok tt | Some l => match l with [] => Err IndexError | z0 :: _ => passert (forallb (fun z => close z z0) l) end end = Ok tt) as ->.
  { unfold one_plane in HP. destruct zs as [l|]; auto. destruct HP as (z0 & Z0 & HP). destruct l as [|z l]; [rewrite zget_nil in Z0; discriminate|]. rewrite zget_cons in Z0. cbn in Z0. injection Z0 as ->. unfold passert. replace (forallb _ _) with true; auto. symmetry. apply forallb_forall. auto. }
  cbn [bind]. unfold get_num_pixels. rewrite (rounded_ys G), (rounded_xs G).
  destruct (@mapM_total _ _ (sort_row u argsort pos (zlen xs)) ys) as [SI HSI].
  { intros y I. apply In_zget in I as (i & _ & Y). destruct (sort_row_ok G HA _ Y) as (l & E & _). eauto. }
  rewrite HSI. cbn [bind].
  assert (GS : forall i row, SI.[i] = Some row -> zlen row = zlen xs /\ forall n j, row.[j] = Some n <-> in_cell n i j).
  { intros i row H. destruct (mapM_zget_back _ _ _ HSI H) as (y & Y & E). destruct (sort_row_ok G HA _ Y) as (l & E' & L1 & L2). rewrite E in E'. injection E' as ->. auto. }
  destruct (@mapM_total _ _ (mapM (at_idx pos)) SI) as [P EP].
  { intros row I. apply In_zget in I as (i & _ & I). destruct (GS _ _ I) as [_ GS']. apply mapM_total. intros n Hn. apply In_zget in Hn as (j & _ & Hn). apply GS' in Hn as (px & py & x & y & E & _). unfold at_idx. rewrite E. eauto. }
  rewrite EP. cbn [bind]. assert (K : mapM (mapM (at_idx sig)) SI = Err IndexError); [|rewrite K; reflexivity].
  assert (M : forall {X Y} (f : X -> res Y) l x, (forall x e, f x = Err e -> e = IndexError) -> In x l -> f x = Err IndexError -> mapM f l = Err IndexError).
  { intros X Y f l x Hf. induction l as [|y l IH]; intros I E; [contradiction|]. cbn [mapM]. destruct (f y) as [v|e] eqn:Fy; [|cbn; f_equal; eapply Hf; eauto]. cbn [bind]. destruct I as [->|I]; [congruence|]. rewrite IH; auto. }
  assert (F1 : forall n e, at_idx sig n = Err e -> e = IndexError) by (intros n e; unfold at_idx; destruct (sig.[n]); congruence).
  assert (F2 : forall row e, mapM (at_idx sig) row = Err e -> e = IndexError). { induction row as [|n row IH]; intros e; cbn [mapM]; [discriminate|]. destruct (at_idx sig n) as [v|e'] eqn:Q; cbn [bind]; [|intros X; injection X as <-; eauto]. destruct (mapM (at_idx sig) row) as [w|e'] eqn:Q'; cbn [bind]; [discriminate|]. intros X. injection X as <-. eauto. }
  pose proof (zlen_nonneg sig). destruct (@zget_in_range _ pos (zlen sig)) as [p Hp]; [lia|]. destruct (covered G _ Hp) as (i & j & C). pose proof C as (px & py & x & y & _ & _ & Yi & _).
  apply zget_some_range in Yi. pose proof (mapM_zlen _ _ HSI) as LS. destruct (@zget_in_range _ SI i) as [row Hrow]; [lia|]. destruct (GS _ _ Hrow) as [_ GS']. apply GS' in C.
  apply M with (x := row); [exact F2|eapply zget_In; eauto|]. apply M with (x := zlen sig); [exact F1|eapply zget_In; eauto|]. unfold at_idx. destruct (sig.[zlen sig]) eqn:Q; [apply zget_some_range in Q; lia|reflexivity].
Qed.
End Grid.
End C84.

(** an argsort that does what is assumed *)
Fixpoint put_index (l : list Z) (k : Z) (s : list Z) : list Z :=
  match s with
  | [] => [k]
  | h :: r => match l.[k], l.[h] with Some v, Some w => if v <=? w then k :: s else h :: put_index l k r | _, _ => k :: s end
  end.
Definition argsort_simple (l : list Z) : list Z := fold_right (put_index l) [] (zrange 0 (zlen l)).
Lemma put_perm l k s : Permutation (put_index l k s) (k :: s).
Proof. induction s as [|h s IH]; cbn [put_index]; auto. destruct (l.[k]); auto. destruct (l.[h]); auto. destruct (_ <=? _); auto. eapply perm_trans; [apply perm_skip; exact IH|]. apply perm_swap. Qed.
Definition le_at (l : list Z) (i j : Z) : Prop := forall v w, l.[i] = Some v -> l.[j] = Some w -> v <= w.
Lemma put_sorted l k s : (exists v, l.[k] = Some v) -> (forall h, In h s -> exists w, l.[h] = Some w) -> StronglySorted (le_at l) s -> StronglySorted (le_at l) (put_index l k s).
Proof.
  intros [v V] H SS. induction SS as [|h s SS IH F]; cbn [put_index]; [repeat constructor|]. destruct (H h (or_introl eq_refl)) as [w W]. rewrite V, W. rewrite Forall_forall in F. destruct (Z.leb_spec v w).
  - constructor; [constructor; auto; apply Forall_forall; auto|]. apply Forall_forall. intros z Hz a b A B. rewrite V in A. injection A as <-. destruct Hz as [<-|Hz]; [rewrite W in B; injection B as <-; lia|]. specialize (F _ Hz _ _ W B). lia.
  - constructor; [apply IH; intros; apply H; right; auto|]. apply Forall_forall. intros z Hz. apply (Permutation_in _ (put_perm l k s)) in Hz as [<-|Hz]; auto. intros a b A B. rewrite W in A. rewrite V in B. injection A as <-. injection B as <-. lia.
Qed.
Lemma argsort_simple_sorts : sorts argsort_simple.
Proof.
  intros l. unfold argsort_simple.
  assert (K : forall s, (forall h, In h s -> exists w, l.[h] = Some w) -> Permutation (fold_right (put_index l) [] s) s /\ StronglySorted (le_at l) (fold_right (put_index l) [] s)).
  { induction s as [|k s IH]; intros H; cbn [fold_right]; [split; [auto|constructor]|]. destruct IH as [P SS]; [intros; apply H; right; auto|]. split.
    - eapply perm_trans; [apply put_perm|auto].
    - apply put_sorted; auto; [apply H; left; auto|]. intros h Hh. apply H. right. eapply Permutation_in; eauto. }
  destruct (K (zrange 0 (zlen l))) as [P SS]. { intros h Hh. apply In_zrange in Hh. apply zget_in_range; auto. }
  split; auto. revert SS. generalize (fold_right (put_index l) [] (zrange 0 (zlen l))) as s. clear. intros s SS. induction SS as [|h s SS IH F]; intros a b i j v w L A B V W; [rewrite zget_nil in A; discriminate|].
  rewrite Forall_forall in F. rewrite zget_cons in A, B. pose proof (zlen_nonneg s). destruct (Z.eqb_spec a 0) as [->|]; destruct (Z.eqb_spec b 0); try lia.
  - injection A as <-. eapply F; eauto. eapply zget_In; eauto.
  - subst. apply zget_some_range in A. lia.
  - eapply (IH (a - 1) (b - 1)); eauto. lia.
Qed.

(** Positions that differ by one tenth of the rounding unit in y and by ten units in x are one row, but the image gets two. *)
Theorem C84_split_row_refuted : exists P V, sort_for_imshow 10 argsort_simple Z.eqb [(0, 5); (100, 6)] None ["a"; "b"] = Ok (P, V) /\
  P = [[(0, 5); (100, 6)]; [(0, 5); (100, 6)]] /\ V = [["a"; "b"]; ["a"; "b"]].
Proof. eexists. eexists. split; [vm_compute; reflexivity|]. split; reflexivity. Qed.
(** Rows one unit of rounding apart (u = 10) are taken together, and the assignment to the row raises. *)
Theorem C84_close_rows_refuted : sort_for_imshow 10 argsort_simple Z.eqb [(0, 0); (100, 1); (0, 10); (100, 10)] None ["a"; "b"; "c"; "d"] = Err ValueError.
Proof. vm_compute. reflexivity. Qed.
(** A position that is missing from the grid is not noticed if its row has one position left: that one is repeated. *)
Theorem C84_missing_refuted : sort_for_imshow 10 argsort_simple Z.eqb [(0, 0); (100, 0); (200, 0); (0, 100)] None ["a"; "b"; "c"; "d"] =
  Ok ([[(0, 0); (100, 0); (200, 0)]; [(0, 100); (0, 100); (0, 100)]], [["d"; "d"; "d"]; ["a"; "b"; "c"]]).
Proof. vm_compute. reflexivity. Qed.

(* ------------------------------------------------------------------ C85 *)
Section C85.
Local Open Scope R_scope.
(** sample t of channel c *)
Definition sample (signal : list (list R)) (c t : Z) (x : R) : Prop := exists ch, signal.[c] = Some ch /\ ch.[t] = Some x.
(** the largest absolute value of all samples of all channels *)
Definition is_peak (p : R) (signal : list (list R)) : Prop :=
  (exists c t x, sample signal c t x /\ p = Rabs x) /\ forall c t x, sample signal c t x -> Rabs x <= p.
(** the number of samples in a ramp: at most a fifth of a second and a tenth of the signal, and no larger number is *)
Definition is_ramp (samplerate n L : Z) : Prop := (5 * L <= samplerate /\ 10 * L <= n /\ (samplerate < 5 * (L + 1) \/ n < 10 * (L + 1)))%Z.
(** the factor for sample t of n: from 0 to 1 in the first L samples, 1 in the middle, from 1 to 0 in the last L samples *)
Definition gain (n L t : Z) : R :=
  if (t <? L)%Z then (if (L =? 1)%Z then 0 else IZR t / IZR (L - 1))
  else if (n - L <=? t)%Z then (if (L =? 1)%Z then 1 else IZR (n - 1 - t) / IZR (L - 1))
  else 1.

Lemma max_abs_ok signal : signal <> [] -> (forall ch, In ch signal -> ch <> []) -> exists p, max_abs signal = Ok p /\ is_peak p signal.
Proof.
  intros N NC. unfold max_abs. destruct (concat signal) as [|x r] eqn:Q.
  - exfalso. destruct signal as [|ch rest]; [congruence|]. cbn in Q. apply app_eq_nil in Q as [Q _]. apply (NC ch); [left; auto|auto].
  - exists (fold_right (fun y m => Rmax (Rabs y) m) (Rabs x) r). split; auto.
    assert (K : (exists y, In y (x :: r) /\ fold_right (fun y m => Rmax (Rabs y) m) (Rabs x) r = Rabs y) /\ forall y, In y (x :: r) -> Rabs y <= fold_right (fun y m => Rmax (Rabs y) m) (Rabs x) r).
    { clear. induction r as [|z r [IH1 IH2]]; cbn [fold_right].
      - split; [exists x; split; [left; auto|auto]|]. intros y [<-|[]]. lra.
      - split.
        + destruct IH1 as (y & I & E). unfold Rmax. destruct (Rle_dec _ _); [exists y; split; [destruct I; [left; auto|right; right; auto]|auto]|exists z; split; [right; left; auto|auto]].
        + intros y [<-|[<-|I]]; [eapply Rle_trans; [apply IH2; left; auto|apply Rmax_r]|apply Rmax_l|eapply Rle_trans; [apply IH2; right; auto|apply Rmax_r]]. }
    assert (S : forall y, In y (concat signal) <-> exists c t, sample signal c t y).
    { intros y. rewrite in_concat. split.
      - intros (ch & I & J). apply In_zget in I as (c & _ & I). apply In_zget in J as (t & _ & J). exists c, t, ch. auto.
      - intros (c & t & ch & I & J). exists ch. split; eapply zget_In; eauto. }
    rewrite Q in S. destruct K as [(y & I & E) K]. split.
    + apply S in I as (c & t & I). exists c, t, y. auto.
    + intros c t z J. apply K, S. eauto.
Qed.
Lemma zlen_linspace n : (0 <= n)%Z -> zlen (linspace01 n) = n.
Proof. intros. unfold linspace01. rewrite zlen_map, zlen_zrange. lia. Qed.
Lemma zget_combine {A B} (a : list A) (b : list B) : forall i x y, a.[i] = Some x -> b.[i] = Some y -> (combine a b).[i] = Some (x, y).
Proof.
  revert b. induction a as [|v a IH]; intros b i x y Ha Hb; [rewrite zget_nil in Ha; discriminate|]. destruct b as [|w b]; [rewrite zget_nil in Hb; discriminate|]. cbn [combine]. rewrite zget_cons in Ha. rewrite zget_cons in Hb. rewrite zget_cons. destruct (i =? 0)%Z; [congruence|auto].
Qed.
Lemma zlen_combine {A B} (a : list A) (b : list B) : zlen (combine a b) = Z.min (zlen a) (zlen b).
Proof. unfold zlen. rewrite combine_length. lia. Qed.
Lemma scale_part_ok ch a b ramp : (0 <= a <= b)%Z -> (b <= zlen ch)%Z -> zlen ramp = (b - a)%Z ->
  exists out, scale_part ch a b ramp = Ok out /\ zlen out = zlen ch /\ forall t x, ch.[t] = Some x ->
    out.[t] = Some (if ((a <=? t) && (t <? b))%Z%bool then match ramp.[t - a] with Some r => x * r | None => 0 end else x).
Proof.
  intros H1 H2 H3. unfold scale_part. set (new := map _ _). assert (L : zlen new = (b - a)%Z) by (unfold new; rewrite zlen_map, zlen_combine, zlen_pyslice_in by lia; lia).
  destruct (pyslice_set_in ch new H1 H2 L) as (out & E & LO & G). exists out. split; auto. split; auto. intros t x Hx. rewrite G. destruct ((a <=? t)%Z && (t <? b)%Z)%bool eqn:Q; [|auto].
  destruct (zget_in_range ramp (i := t - a)%Z) as [r R]; [lia|]. rewrite R. unfold new. rewrite zget_map. erewrite zget_combine; [reflexivity| |exact R]. rewrite zget_pyslice_in by lia. replace ((0 <=? t - a)%Z && (t - a <? b - a)%Z)%bool with true by lia. replace (a + (t - a))%Z with t by lia. auto.
Qed.
End C85.
Section C85_theorems.
Local Open Scope R_scope.
Lemma ramped_ok n L ch : zlen ch = n -> (0 < n)%Z -> (10 * L <= n)%Z ->
  exists out, ramped L ch = Ok out /\ zlen out = n /\ forall t x, ch.[t] = Some x -> out.[t] = Some (x * gain n L t).
Proof.
  intros LC N HL. unfold ramped. destruct (Z.ltb_spec 0 L).
  - destruct (@scale_part_ok ch 0 L (linspace01 L)) as (c1 & E1 & L1 & G1); [lia|lia|rewrite zlen_linspace; lia|]. rewrite E1. cbn [bind].
    assert (EN : scale_part c1 (- L) (zlen c1) (map (fun r => 1 - r) (linspace01 L)) = scale_part c1 (n - L) n (map (fun r => 1 - r) (linspace01 L))).
    { unfold scale_part, pyslice_set, pyslice. rewrite !L1, !LC. replace (norm_idx n (- L)) with (norm_idx n (n - L)) by (unfold norm_idx; destruct (Z.ltb_spec (- L) 0); destruct (Z.ltb_spec (n - L) 0); lia). reflexivity. }
    rewrite EN. destruct (@scale_part_ok c1 (n - L) n (map (fun r => 1 - r) (linspace01 L))) as (c2 & E2 & L2 & G2); [lia|lia|rewrite zlen_map, zlen_linspace; lia|].
    exists c2. split; auto. split; [lia|]. intros t x Hx. pose proof (zget_some_range _ _ Hx) as R. rewrite (G2 _ _ (G1 _ _ Hx)). f_equal.
    assert (GL : forall k, (0 <= k < L)%Z -> (linspace01 L).[k] = Some (if (L =? 1)%Z then 0 else IZR k / IZR (L - 1))).
    { intros k Hk. unfold linspace01. rewrite zget_map, zget_zrange. replace ((0 <=? k)%Z && (k <? L - 0)%Z)%bool with true by lia. cbn [option_map]. replace (0 + k)%Z with k by lia. auto. }
    unfold gain. destruct (Z.ltb_spec t L).
    + replace (0 <=? t)%Z with true by lia. cbn [andb]. replace ((n - L <=? t)%Z && (t <? n)%Z)%bool with false by lia. rewrite GL by lia. replace (t - 0)%Z with t by lia. auto.
    + rewrite andb_false_r. destruct (Z.leb_spec (n - L) t).
      * replace (t <? n)%Z with true by lia. cbn [andb]. rewrite zget_map, GL by lia. cbn [option_map]. destruct (Z.eqb_spec L 1); [ring|].
        assert (IZR (L - 1) <> 0) by (apply not_0_IZR; lia). replace (n - 1 - t)%Z with (L - 1 - (t - (n - L)))%Z by lia. rewrite (minus_IZR (L - 1)). field. auto.
      * cbn [andb]. ring.
  - exists ch. split; auto. split; auto. intros t x Hx. pose proof (zget_some_range _ _ Hx). rewrite Hx. f_equal. unfold gain. replace (t <? L)%Z with false by lia. replace (n - L <=? t)%Z with false by lia. ring.
Qed.

(** C85.  All channels are divided by the largest absolute value of all samples and multiplied by the same ramps. *)
Theorem C85_written samplerate n signal : (0 <= samplerate)%Z -> (0 < n)%Z -> signal <> [] -> (forall ch, In ch signal -> zlen ch = n) -> (exists c t x, sample signal c t x /\ x <> 0) ->
  exists p L out, is_peak p signal /\ is_ramp samplerate n L /\ audio_signal samplerate signal = Ok (Samples out) /\
    zlen out = zlen signal /\ (forall ch, In ch out -> zlen ch = n) /\
    forall c t x, sample signal c t x -> sample out c t (x / p * gain n L t).
Proof.
  intros HS N NE HL (c0 & t0 & x0 & S0 & N0). destruct (max_abs_ok NE) as (p & EP & PP). { intros ch I ->. apply HL in I. cbn in I. lia. }
  exists p, (Z.min (samplerate / 5) (n / 10))%Z. unfold audio_signal. rewrite EP. cbn [bind]. assert (0 < p). { destruct PP as [_ PP]. specialize (PP _ _ _ S0). apply Rabs_pos_lt in N0. lra. }
  destruct (Req_EM_T p 0); [lra|]. assert (match signal with [] => 0%Z | ch :: _ => zlen ch end = n) as -> by (destruct signal; [congruence|apply HL; left; auto]).
  set (L := Z.min (samplerate / 5) (n / 10)). assert (HRL : is_ramp samplerate n L).
  { pose proof (Z.div_mod samplerate 5 ltac:(lia)). pose proof (Z.mod_pos_bound samplerate 5 ltac:(lia)). pose proof (Z.div_mod n 10 ltac:(lia)). pose proof (Z.mod_pos_bound n 10 ltac:(lia)). unfold is_ramp, L. lia. }
  destruct (@mapM_total _ _ (ramped L) (map (map (fun x => x / p)) signal)) as [out HO].
  { intros ch I. apply in_map_iff in I as (ch' & <- & I). destruct (@ramped_ok n L (map (fun x => x / p) ch')) as (o & E & _); [rewrite zlen_map; auto|auto|apply HRL|eauto]. }
  exists out. split; auto. split; auto. rewrite HO. cbn [bind]. split; auto. split; [rewrite (mapM_zlen _ _ HO), zlen_map; auto|].
  assert (G : forall c och, out.[c] = Some och -> exists ch, signal.[c] = Some ch /\ zlen och = n /\ forall t x, ch.[t] = Some x -> och.[t] = Some (x / p * gain n L t)).
  { intros c och H1. destruct (mapM_zget_back _ _ _ HO H1) as (sch & H2 & H3). rewrite zget_map in H2. destruct (signal.[c]) as [ch|] eqn:Q; [|discriminate]. injection H2 as <-. exists ch. split; auto.
    destruct (@ramped_ok n L (map (fun x => x / p) ch)) as (o & E & LO & GO); [rewrite zlen_map; apply HL; eapply zget_In; eauto|auto|apply HRL|]. rewrite E in H3. injection H3 as <-. split; auto. intros t x Hx. apply GO. rewrite zget_map, Hx. auto. }
  split.
  - intros ch I. apply In_zget in I as (c & _ & I). destruct (G _ _ I) as (ch' & _ & Q & _). auto.
  - intros c t x (ch & C & T). pose proof (zget_some_range _ _ C) as R. assert (RO : (0 <= c < zlen out)%Z) by (rewrite (mapM_zlen _ _ HO), zlen_map; auto). destruct (zget_in_range _ RO) as [och HC]. destruct (G _ _ HC) as (ch' & C' & _ & G'). rewrite C in C'. injection C' as <-. exists och. auto.
Qed.
(** the gains lie between 0 and 1, so no written sample exceeds 1 *)
Theorem C85_bounded n L t x p : (10 * L <= n)%Z -> (0 <= t < n)%Z -> Rabs x <= p -> 0 < p -> 0 <= gain n L t <= 1 /\ Rabs (x / p * gain n L t) <= 1.
Proof.
  intros H1 H2 H3 H4. assert (D : forall a b, (0 <= a <= b)%Z -> (0 < b)%Z -> 0 <= IZR a / IZR b <= 1).
  { intros a b Ha Hb. apply IZR_lt in Hb. assert (0 <= IZR a <= IZR b) by (split; apply IZR_le; lia). split; [apply Rmult_le_pos; [lra|left; apply Rinv_0_lt_compat; lra]|]. apply Rmult_le_reg_r with (IZR b); [lra|]. unfold Rdiv. rewrite Rmult_assoc, Rinv_l by lra. lra. }
  assert (G : 0 <= gain n L t <= 1).
  { unfold gain. destruct (Z.ltb_spec t L); [destruct (Z.eqb_spec L 1); [lra|apply D; lia]|]. destruct (Z.leb_spec (n - L) t); [destruct (Z.eqb_spec L 1); [lra|apply D; lia]|lra]. }
  split; auto. rewrite Rabs_mult, (Rabs_right (gain n L t)) by lra. unfold Rdiv. rewrite Rabs_mult, (Rabs_right (/ p)) by (left; apply Rinv_0_lt_compat; lra).
  assert (0 <= Rabs x * / p <= 1). { pose proof (Rabs_pos x). pose proof (Rinv_0_lt_compat _ H4). split; [apply Rmult_le_pos; lra|]. apply Rmult_le_reg_r with p; [lra|]. rewrite Rmult_assoc, Rinv_l by lra. lra. }
  replace 1 with (1 * 1) by ring. apply Rmult_le_compat; lra.
Qed.
(** ramps of two samples or more start and end at silence, and one is the mirror image of the other *)
Theorem C85_fades n L : (2 <= L)%Z -> (10 * L <= n)%Z -> gain n L 0 = 0 /\ gain n L (n - 1) = 0 /\ gain n L (L - 1) = 1 /\ gain n L (n - L) = 1 /\ forall t, (0 <= t < n)%Z -> gain n L (n - 1 - t) = gain n L t.
Proof.
  intros H1 H2. assert (IZR (L - 1) <> 0) by (apply not_0_IZR; lia). unfold gain. replace (L =? 1)%Z with false by lia.
  assert (A : forall t, (t < L)%Z -> (t <? L)%Z = true) by lia. assert (B : forall t, (L <= t)%Z -> (t <? L)%Z = false) by lia. split; [rewrite A by lia; unfold Rdiv; ring|]. split; [rewrite B by lia; replace (n - L <=? n - 1)%Z with true by lia; replace (n - 1 - (n - 1))%Z with 0%Z by lia; unfold Rdiv; ring|].
  split; [rewrite A by lia; field; auto|]. split; [rewrite B by lia; rewrite Z.leb_refl; replace (n - 1 - (n - L))%Z with (L - 1)%Z by lia; field; auto|].
  intros t Ht. destruct (Z.ltb_spec t L).
  - rewrite B by lia. replace (n - L <=? n - 1 - t)%Z with true by lia. replace (n - 1 - (n - 1 - t))%Z with t by lia. auto.
  - destruct (Z.leb_spec (n - L) t).
    + rewrite A by lia. auto.
    + rewrite B by lia. replace (n - L <=? n - 1 - t)%Z with false by lia. auto.
Qed.
(** Signals of 10 to 19 samples fade in but do not fade out. *)
Theorem C85_no_fade_out_refuted n samplerate L : (10 <= n < 20)%Z -> (5 <= samplerate)%Z -> is_ramp samplerate n L -> gain n L 0 = 0 /\ gain n L (n - 1) = 1.
Proof.
  intros H1 H2 (A & B & C). assert (L = 1%Z) as -> by lia. unfold gain. cbn [Z.ltb Z.compare Z.eqb Pos.eqb]. split; auto. replace (n - 1 <? 1)%Z with false by lia. replace (n - 1 <=? n - 1)%Z with true by lia. auto.
Qed.
(** A silent signal is written as NaN. *)
Theorem C85_silent_refuted samplerate signal : signal <> [] -> (forall ch, In ch signal -> ch <> []) -> (forall c t x, sample signal c t x -> x = 0) -> audio_signal samplerate signal = Ok AllNan.
Proof.
  intros N NC H. destruct (max_abs_ok N NC) as (p & E & (c & t & x & S & ->) & _). apply H in S as ->. unfold audio_signal. rewrite E. cbn [bind]. rewrite Rabs_R0. destruct (Req_EM_T 0 0); [auto|lra].
Qed.
(** there is no peak in a signal without samples *)
Theorem C85_nothing samplerate signal : (forall ch, In ch signal -> ch = []) -> audio_signal samplerate signal = Err ValueError.
Proof. intros H. unfold audio_signal, max_abs. assert (concat signal = []) as ->; [|reflexivity]. induction signal; auto. cbn. rewrite (H a) by (left; auto). apply IHsignal. intros; apply H; right; auto. Qed.
(** one file per processor, named after diagnostic, processor and time index; different processors have different files *)
Theorem C85_files name time_idx samplerate outputs files : create_audio_files name time_idx samplerate outputs = Ok files ->
  map fst files = map (fun proc => name ++ "_" ++ proc ++ "_" ++ py_str time_idx ++ ".wav")%string (dkeys outputs) /\
  (forall i proc signal, outputs.[i] = Some (proc, signal) -> exists f a, files.[i] = Some (f, a) /\ audio_signal samplerate signal = Ok a) /\
  (NoDup (dkeys outputs) -> NoDup (map fst files)).
Proof.
  unfold create_audio_files. intros H. assert (E : map fst files = map (fun proc => name ++ "_" ++ proc ++ "_" ++ py_str time_idx ++ ".wav")%string (dkeys outputs)).
  { revert files H. induction outputs as [|[k s] o IH]; cbn [mapM]; intros files H; [injection H as <-; auto|]. apply bind_ok in H as (y & Hy & H). apply bind_ok in H as (ys & Hs & H). injection H as <-. apply bind_ok in Hy as (a & _ & Hy). injection Hy as <-. cbn [map fst dkeys]. f_equal. apply IH; auto. }
  split; auto. split.
  - intros i proc signal G. destruct (mapM_zget _ _ _ H G) as (y & Y & HY). apply bind_ok in HY as (a & HA & HY). injection HY as <-. eauto.
  - intros ND. rewrite E. revert ND. generalize (dkeys outputs) as l. clear. induction 1 as [|x l NI _ IH]; cbn [map]; constructor; auto. intros I. apply in_map_iff in I as (y & Q & I). apply NI. apply sapp_inv_head, sapp_inv_head in Q.
    assert (y = x) as <-; auto. revert Q. set (w := ("_" ++ py_str time_idx ++ ".wav")%string). clearbody w. clear. intros Q. assert (LQ : slen y = slen x) by (pose proof (f_equal slen Q) as K; rewrite !slen_app in K; lia).
    rewrite <- (sprefix_app y w (n := slen y) eq_refl), <- (sprefix_app x w (n := slen x) eq_refl). rewrite Q, LQ. auto.
Qed.
End C85_theorems.

(* ------------------------------------------------------------------ C86 *)
Section C86.
Variable H : Type.
(** the character c occurs in s *)
Definition has (c : ascii) (s : string) : Prop := exists a b, s = (a ++ String c b)%string.
Lemma has_cons c x s : has c (String x s) <-> c = x \/ has c s.
Proof.
  split.
  - intros (a & b & E). destruct a as [|y a]; cbn in E; injection E as -> ->; [left; auto|right; exists a, b; auto].
  - intros [->|(a & b & ->)]; [exists "", s; auto|exists (String x a), b; auto].
Qed.
Lemma has_nil c : ~ has c "".
Proof. intros (a & b & E). destruct a; discriminate. Qed.
Lemma escape_plain s : ~ has "_" s -> escape s = s.
Proof.
  induction s as [|c s IH]; intros N; cbn [escape]; auto. destruct (Ascii.eqb_spec c "_") as [->|]; [exfalso; apply N, has_cons; auto|]. f_equal. apply IH. intros K. apply N, has_cons. auto.
Qed.
Lemma escape_has s : has "_" s -> has "\" (escape s).
Proof.
  induction s as [|c s IH]; intros K; [destruct (has_nil K)|]. cbn [escape]. destruct (Ascii.eqb_spec c "_") as [->|]; [apply has_cons; auto|]. apply has_cons. right. apply IH. apply has_cons in K as [E|K]; [congruence|auto].
Qed.
Lemma has_dec c s : has c s \/ ~ has c s.
Proof.
  induction s as [|x s IH]; [right; apply has_nil|]. destruct (Ascii.eqb_spec c x) as [->|N]; [left; apply has_cons; auto|]. destruct IH as [K|K]; [left; apply has_cons; auto|right; rewrite has_cons; intros [E|E]; auto].
Qed.

(** entry i is shown: its label has an underscore or was not used before *)
Definition shown (entries : list (H * string)) (i : Z) : Prop :=
  exists h l, entries.[i] = Some (h, l) /\ (has "_" l \/ forall k h', k < i -> entries.[k] <> Some (h', l)).

(** C86.  The legend lists the shown entries in their order, underscores written with a backslash. *)
Theorem C86_entries entries : (forall h l, In (h, l) entries -> ~ has "\" l) ->
  exists idx, StronglySorted Z.lt idx /\ (forall i, In i idx <-> shown entries i) /\
    Forall2 (fun i e => exists h l, entries.[i] = Some (h, l) /\ e = (h, escape l)) idx (legend_without_duplicates entries).
Proof.
  induction entries as [|[h l] entries IH] using rev_ind; intros NB.
  - exists []. split; [constructor|]. split; [|constructor]. intros i. split; [intros []|]. intros (h & l & E & _). rewrite zget_nil in E. discriminate.
  - destruct IH as (idx & I1 & I2 & I3). { intros h' l' I. apply (NB h'). apply in_or_app. auto. }
    unfold legend_without_duplicates in *. rewrite fold_left_app. cbn [fold_left fst snd]. set (old := fold_left _ entries []) in *.
    assert (GO : forall i, i < zlen entries -> (entries ++ [(h, l)]).[i] = entries.[i]) by (intros i Hi; rewrite zget_app; replace (i <? zlen entries) with true by lia; auto).
    assert (GN : (entries ++ [(h, l)]).[zlen entries] = Some (h, l)) by (rewrite zget_app, Z.ltb_irrefl, Z.sub_diag; auto).
    assert (SO : forall i, i < zlen entries -> shown (entries ++ [(h, l)]) i <-> shown entries i).
    { intros i Hi. unfold shown. split; intros (h1 & l1 & E & K); exists h1, l1; (split; [rewrite GO in * by lia; auto|]); (destruct K as [K|K]; [left; auto|right]); intros k h2 Hk; specialize (K k h2 Hk); rewrite GO in * by lia; auto. }
    assert (IR : forall i, In i idx -> i < zlen entries) by (intros i Hi; apply I2 in Hi as (h1 & l1 & E & _); apply zget_some_range in E; lia).
    assert (UP : forall i, shown (entries ++ [(h, l)]) i -> i < zlen entries \/ i = zlen entries).
    { intros i (h1 & l1 & E & _). apply zget_some_range in E. rewrite zlen_app in E. change (zlen [(h, l)]) with 1 in E. lia. }
    assert (F3 : Forall2 (fun i e => exists h1 l1, (entries ++ [(h, l)]).[i] = Some (h1, l1) /\ e = (h1, escape l1)) idx old).
    { clear - I3 GO IR. induction I3 as [|i e idx old (h1 & l1 & E & EE) _ IH]; constructor.
      - exists h1, l1. split; auto. rewrite GO; auto. apply IR. left; auto.
      - apply IH. intros; apply IR; right; auto. }
    assert (D : (In l (map snd old) /\ ~ shown (entries ++ [(h, l)]) (zlen entries)) \/ (~ In l (map snd old) /\ shown (entries ++ [(h, l)]) (zlen entries))).
    { assert (MEM : In l (map snd old) <-> exists i h1 l1, shown entries i /\ entries.[i] = Some (h1, l1) /\ escape l1 = l).
      { rewrite in_map_iff. split.
        - intros ([h1 l'] & E & I). cbn in E. subst l'. assert (exists i, In i idx /\ exists h2 l2, entries.[i] = Some (h2, l2) /\ (h1, l) = (h2, escape l2)) as (i & Ii & h2 & l2 & E & EE).
          { clear - I3 I. induction I3 as [|i e idx old P _ IH]; [destruct I|]. destruct I as [->|I]; [exists i; split; [left; auto|auto]|]. destruct (IH I) as (k & K & Q). exists k. split; [right; auto|auto]. }
          injection EE as -> ->. exists i, h2, l2. split; [apply I2; auto|auto].
        - intros (i & h1 & l1 & S & E & EE). apply I2 in S. assert (In (h1, escape l1) old) as J.
          { clear - I3 S E. induction I3 as [|k e idx old (h2 & l2 & P & ->) _ IH]; [destruct S|]. destruct S as [->|S]; [left; congruence|right; auto]. }
          exists (h1, escape l1). split; auto. }
      assert (NBl : ~ has "\" l) by (apply (NB h); apply in_or_app; right; left; auto).
      assert (SN : shown (entries ++ [(h, l)]) (zlen entries) <-> (has "_" l \/ forall k h', entries.[k] <> Some (h', l))).
      { unfold shown. split.
        - intros (h1 & l1 & E & K). rewrite GN in E. injection E as <- <-. destruct K as [K|K]; [auto|right]. intros k h' E. pose proof (zget_some_range _ _ E). apply (K k h'); [lia|]. rewrite GO by lia. auto.
        - intros K. exists h, l. split; auto. destruct K as [K|K]; [auto|right]. intros k h' Hk. rewrite GO by lia. auto. }
      rewrite SN, MEM. destruct (has_dec "_" l) as [U|U].
      - right. split; [|auto]. intros (i & h1 & l1 & S & E & EE). subst l. destruct (has_dec "_" l1) as [U1|U1]; [apply NBl, escape_has; auto|]. rewrite (escape_plain U1) in U. auto.
      - assert (first : (exists k h', entries.[k] = Some (h', l)) -> exists k h', entries.[k] = Some (h', l) /\ forall j h2, j < k -> entries.[j] <> Some (h2, l)).
        { clear. intros (k & h' & E). revert h' E. pose proof (zget_some_range entries k) as R. assert (exists n, k = Z.of_nat n \/ k < 0) as (n & [->|Hn]) by (exists (Z.to_nat k); lia); [|intros h' E; apply R in E; lia]. clear R.
          induction n as [n IH] using lt_wf_ind. intros h' E. destruct (existsb (fun j => match entries.[j] with Some (_, l') => String.eqb l' l | None => false end) (zrange 0 (Z.of_nat n))) eqn:Q.
          - apply existsb_exists in Q as (j & J & Q). apply In_zrange in J. destruct (entries.[j]) as [[h2 l2]|] eqn:EJ; [|discriminate]. apply String.eqb_eq in Q. subst l2. apply (IH (Z.to_nat j)) with h2; [lia|]. rewrite Z2Nat.id by lia. auto.
          - exists (Z.of_nat n), h'. split; auto. intros j h2 Hj EJ. pose proof (zget_some_range _ _ EJ). assert (existsb (fun j => match entries.[j] with Some (_, l') => String.eqb l' l | None => false end) (zrange 0 (Z.of_nat n)) = true); [|congruence]. apply existsb_exists. exists j. split; [apply In_zrange; lia|]. rewrite EJ. apply String.eqb_refl. }
        destruct (existsb (fun e => String.eqb (snd e) l) entries) eqn:Q.
        + left. apply existsb_exists in Q as ([h1 l1] & I & Q). cbn in Q. apply String.eqb_eq in Q. subst l1. apply In_zget in I as (k0 & _ & E0). destruct first as (k & h' & E & K); [eauto|]. split.
          * exists k, h', l. split; [exists h', l; split; [auto|right; auto]|]. split; [auto|]. apply escape_plain; auto.
          * intros [U1|K1]; [auto|]. apply (K1 _ _ E).
        + assert (NI : forall k h', entries.[k] <> Some (h', l)). { intros k h' E. assert (existsb (fun e => String.eqb (snd e) l) entries = true); [|congruence]. apply existsb_exists. exists (h', l). split; [eapply zget_In; eauto|apply String.eqb_refl]. }
          right. split; [|auto]. intros (i & h1 & l1 & S & E & EE). destruct (has_dec "_" l1) as [U1|U1]; [apply NBl; rewrite <- EE; apply escape_has; auto|]. rewrite (escape_plain U1) in EE. subst l1. apply (NI _ _ E). }
    destruct D as [[D1 D2]|[D1 D2]].
    + apply smem_spec in D1. rewrite D1. exists idx. split; auto. split; auto. intros i. rewrite I2. split; intros S.
      * apply SO; auto. apply IR, I2; auto.
      * destruct (UP _ S) as [L| ->]; [apply SO; auto|destruct (D2 S)].
    + apply smem_false in D1. rewrite D1. exists (idx ++ [zlen entries]). split; [|split].
      * clear - I1 IR. induction I1 as [|i idx S IH F]; cbn [app]; [repeat constructor|]. constructor; [apply IH; intros; apply IR; right; auto|]. apply Forall_app. split; auto. repeat constructor. apply IR. left; auto.
      * intros i. rewrite in_app_iff, I2. split.
        -- intros [S|[<-|[]]]; [apply SO; auto; apply IR, I2; auto|auto].
        -- intros S. destruct (UP _ S) as [L| ->]; [left; apply SO; auto|right; left; auto].
      * apply Forall2_app; auto. repeat constructor. exists h, l. auto.
Qed.
(** labels without underscores: each is listed once *)
Theorem C86_once_partial (entries : list (H * string)) : (forall h l, In (h, l) entries -> ~ has "\" l /\ ~ has "_" l) ->
  NoDup (map snd (legend_without_duplicates entries)) /\ forall l, In l (map snd (legend_without_duplicates entries)) <-> In l (map snd entries).
Proof.
  intros NB. unfold legend_without_duplicates. induction entries as [|[h l] entries IH] using rev_ind; [split; [constructor|intros; cbn; intuition]|].
  destruct IH as [I1 I2]. { intros h' l' I. apply (NB h'). apply in_or_app. auto. }
  rewrite fold_left_app. cbn [fold_left fst snd]. set (old := fold_left _ entries []) in *. destruct (smem l (map snd old)) eqn:Q.
  - apply smem_spec in Q. split; auto. intros x. rewrite I2, map_app, in_app_iff. split; [auto|]. intros [I|[<-|[]]]; [auto|]. apply I2. auto.
  - apply smem_false in Q. rewrite (escape_plain (s := l)) by (apply (NB h); apply in_or_app; right; left; auto). split.
    + rewrite map_app. apply NoDup_snoc; auto.
    + intros x. rewrite !map_app, !in_app_iff, I2. intuition.
Qed.
(** Labels with underscores, such as processor names with an index, are repeated. *)
Theorem C86_underscore_refuted (h1 h2 : H) l : has "_" l -> ~ has "\" l -> legend_without_duplicates [(h1, l); (h2, l)] = [(h1, escape l); (h2, escape l)].
Proof.
  intros U B. unfold legend_without_duplicates. cbn [fold_left fst snd map app smem existsb]. destruct (String.eqb_spec l (escape l)) as [E|]; [|auto]. exfalso. apply B. rewrite E. apply escape_has; auto.
Qed.
End C86.

(* ------------------------------------------------------------------ Examples *)
Lemma get_cons2 {A} (a b x : A) i : [a; b].[i] = Some x -> (i = 0 /\ x = a) \/ (i = 1 /\ x = b).
Proof. rewrite !zget_cons, zget_nil. destruct (Z.eqb_spec i 0); [intros E; injection E as <-; auto|]. destruct (Z.eqb_spec (i - 1) 0); [intros E; injection E as <-; right; split; [lia|auto]|discriminate]. Qed.
Example C84_sorted_partial_meets : let pos := [(101, -1); (0, 2); (1, 100); (99, 101)] in
  rectangular 10 pos [0; 100] [0; 100] /\ sorts argsort_simple /\ one_plane Z.eqb (Some [7; 7; 7; 7]) /\ zlen ["a"; "b"; "c"; "d"] = zlen pos /\
  sort_for_imshow 10 argsort_simple Z.eqb pos (Some [7; 7; 7; 7]) ["a"; "b"; "c"; "d"] = Ok ([[(0, 2); (101, -1)]; [(1, 100); (99, 101)]], [["c"; "d"]; ["b"; "a"]]).
Proof.
  intros pos. split; [|split; [apply argsort_simple_sorts|split; [exists 7; split; [reflexivity|intros z Hz; cbn in Hz; intuition (subst; reflexivity)]|split; [reflexivity|vm_compute; reflexivity]]]].
  assert (N : forall r p, (exists q, r = q * 10) -> 2 * Z.abs (p - r) < 10 -> nearest 10 r p) by (intros r p (q & ->) L; exists q; split; [auto|split; lia]).
  assert (N0 : exists q, 0 = q * 10) by (exists 0; auto). assert (N1 : exists q, 100 = q * 10) by (exists 10; auto).
  assert (C : in_cell 10 pos [0; 100] [0; 100] 0 0 1 /\ in_cell 10 pos [0; 100] [0; 100] 1 0 0 /\ in_cell 10 pos [0; 100] [0; 100] 2 1 0 /\ in_cell 10 pos [0; 100] [0; 100] 3 1 1).
  { repeat split; eexists; eexists; eexists; eexists; (split; [reflexivity|]); (split; [reflexivity|]); (split; [reflexivity|]); split; apply N; auto; lia. }
  destruct C as (C1 & C2 & C3 & C4). constructor.
  - intros j j' x x' L A B. apply get_cons2 in A as [[-> ->]|[-> ->]]; apply get_cons2 in B as [[-> ->]|[-> ->]]; lia.
  - intros j j' x x' L A B. apply get_cons2 in A as [[-> ->]|[-> ->]]; apply get_cons2 in B as [[-> ->]|[-> ->]]; lia.
  - split; discriminate.
  - intros n p G. pose proof (zget_some_range _ _ G) as R. change (zlen pos) with 4 in R. assert (n = 0 \/ n = 1 \/ n = 2 \/ n = 3) as [->|[->|[->| ->]]] by lia; eauto.
  - intros i j Hi Hj. change (zlen [0; 100]) with 2 in *. assert (i = 0 \/ i = 1) as [->| ->] by lia; assert (j = 0 \/ j = 1) as [->| ->] by lia; eauto.
  - assert (K : forall n i j, in_cell 10 pos [0; 100] [0; 100] n i j -> n = 0 /\ i = 0 /\ j = 1 \/ n = 1 /\ i = 0 /\ j = 0 \/ n = 2 /\ i = 1 /\ j = 0 \/ n = 3 /\ i = 1 /\ j = 1).
    { intros n i j (px & py & x & y & E & X & Y & NX & NY). apply round_eq in NX; [|lia]. apply round_eq in NY; [|lia]. pose proof (zget_some_range _ _ E) as R. change (zlen pos) with 4 in R.
      assert (n = 0 \/ n = 1 \/ n = 2 \/ n = 3) as [->|[->|[->| ->]]] by lia; vm_compute in E; injection E as <- <-; vm_compute in NX, NY; subst x y; apply get_cons2 in X; apply get_cons2 in Y; lia. }
    intros n n' i j A B. apply K in A. apply K in B. lia.
Qed.
Example C84_too_few_meets : sort_for_imshow 10 argsort_simple Z.eqb [(101, -1); (0, 2); (1, 100); (99, 101)] None ["a"; "b"; "c"] = Err IndexError.
Proof. vm_compute. reflexivity. Qed.
Section Audio.
Local Open Scope R_scope.
Let sig := [map (fun k => IZR (k - 20)) (zrange 0 30); map (fun k => IZR (5 - k)) (zrange 0 30)].
Example C85_written_meets : (0 <= 48000)%Z /\ (0 < 30)%Z /\ sig <> [] /\ (forall ch, In ch sig -> zlen ch = 30%Z) /\ (exists c t x, sample sig c t x /\ x <> 0) /\ is_ramp 48000 30 3 /\ gain 30 3 1 = 1 / 2.
Proof.
  split; [lia|]. split; [lia|]. split; [discriminate|]. split; [intros ch [<-|[<-|[]]]; reflexivity|]. split; [|split; [unfold is_ramp; lia|unfold gain; cbn; lra]].
  exists 0%Z, 3%Z, (IZR (-17)). split; [eexists; split; reflexivity|]. apply not_0_IZR. lia.
Qed.
Example C85_nothing_meets : audio_signal 48000 [[]; []] = Err ValueError.
Proof. apply C85_nothing. intros ch [<-|[<-|[]]]; reflexivity. Qed.
Example C85_bounded_meets : (10 * 3 <= 30)%Z /\ (0 <= 1 < 30)%Z /\ Rabs (-2) <= 4 /\ 0 < 4.
Proof. split; [lia|]. split; [lia|]. rewrite Rabs_left; lra. Qed.
Example C85_fades_meets : (2 <= 3)%Z /\ (10 * 3 <= 30)%Z.
Proof. lia. Qed.
Example C85_no_fade_out_refuted_meets : (10 <= 15 < 20)%Z /\ (5 <= 8000)%Z /\ is_ramp 8000 15 1.
Proof. unfold is_ramp. lia. Qed.
Example C85_silent_refuted_meets : [[0; 0]] <> [] /\ (forall ch, In ch [[0; 0]] -> ch <> []) /\ forall c t x, sample [[0; 0]] c t x -> x = 0.
Proof.
  split; [discriminate|]. split; [intros ch [<-|[]]; discriminate|]. intros c t x (ch & C & T). apply zget_In in C as [<-|[]]. apply zget_In in T as [<-|[<-|[]]]; auto.
Qed.
Example C85_files_meets : exists files, create_audio_files "rec" 100 8000 [("proc_0", [[0; 0]]); ("proc_1", [[0]])] = Ok files /\ map fst files = ["rec_proc_0_100.wav"; "rec_proc_1_100.wav"].
Proof.
  unfold create_audio_files. cbn [mapM snd fst]. rewrite !C85_silent_refuted; try discriminate; try (intros ch [<-|[]]; discriminate); try (intros c t x (ch & C & T); apply zget_In in C as [<-|[]]; apply zget_In in T; cbn in T; intuition).
  cbn [bind]. eexists. split; reflexivity.
Qed.
End Audio.
Example C86_entries_meets : (forall h l, In (h, l) [(1, "a"); (2, "p_0"); (3, "a"); (4, "p_0")] -> ~ has "\" l) /\
  legend_without_duplicates [(1, "a"); (2, "p_0"); (3, "a"); (4, "p_0")] = [(1, "a"); (2, "p\_0"); (4, "p\_0")].
Proof.
  split; [|reflexivity]. intros h l I K. cbn [In] in I. destruct I as [E|[E|[E|[E|[]]]]]; injection E as <- <-; repeat (apply has_cons in K as [K|K]; [discriminate|]); apply has_nil in K; auto.
Qed.
Example C86_once_partial_meets : (forall h l, In (h, l) [(1, "a"); (2, "b"); (3, "a")] -> ~ has "\" l /\ ~ has "_" l) /\ legend_without_duplicates [(1, "a"); (2, "b"); (3, "a")] = [(1, "a"); (2, "b")].
Proof.
  split; [|reflexivity]. intros h l I. cbn [In] in I. destruct I as [E|[E|[E|[]]]]; injection E as <- <-; split; intros K; repeat (apply has_cons in K as [K|K]; [discriminate|]); apply has_nil in K; auto.
Qed.
Example C86_underscore_refuted_meets : has "_" "proc_0" /\ ~ has "\" "proc_0".
Proof. split; [exists "proc", "0"; reflexivity|]. intros K. repeat (apply has_cons in K as [K|K]; [discriminate|]). apply has_nil in K; auto. Qed.

Print Assumptions C84_sorted_partial.
Print Assumptions C84_pixels.
Print Assumptions C84_too_few.
Print Assumptions C84_split_row_refuted.
Print Assumptions C84_close_rows_refuted.
Print Assumptions C84_missing_refuted.
Print Assumptions C85_written.
Print Assumptions C85_bounded.
Print Assumptions C85_fades.
Print Assumptions C85_no_fade_out_refuted.
Print Assumptions C85_silent_refuted.
Print Assumptions C85_nothing.
Print Assumptions C85_files.
Print Assumptions C86_entries.
Print Assumptions C86_once_partial.
Print Assumptions C86_underscore_refuted.
