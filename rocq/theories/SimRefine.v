(** The buffered simulator refines the reference simulator on unbounded time lines. *)
Require Import Verif.PyBase Verif.PyLemmas Verif.ConfigModel Verif.ArrayModel Verif.LoggerModel
  Verif.SimModel Verif.SimSpec.
Set Implicit Arguments.
Ltac Zify.zify_post_hook ::= Z.div_mod_to_equations.

(* ------------------------------------------------------------------ related outcomes *)
Definition res_rel {A B} (R : A -> B -> Prop) (x : res A) (y : res B) : Prop :=
  match x, y with
  | Ok a, Ok b => R a b
  | Err e, Err e' => e = e'
  | _, _ => False
  end.
Lemma bind_rel {A B A' B'} (R : A -> B -> Prop) (Q : A' -> B' -> Prop) m1 m2 k1 k2 :
  res_rel R m1 m2 -> (forall a b, R a b -> res_rel Q (k1 a) (k2 b)) ->
  res_rel Q (bind m1 k1) (bind m2 k2).
Proof. destruct m1, m2; simpl; intros; try tauto; subst; auto. Qed.
Lemma bind_rel_eq {A A' B'} (Q : A' -> B' -> Prop) (m : res A) k1 k2 :
  (forall a, m = Ok a -> res_rel Q (k1 a) (k2 a)) -> res_rel Q (bind m k1) (bind m k2).
Proof. destruct m; simpl; auto. Qed.
Lemma foldM_rel {A B X} (R : A -> B -> Prop) (f : A -> X -> res A) (g : B -> X -> res B) l :
  (forall a b x, In x l -> R a b -> res_rel R (f a x) (g b x)) ->
  forall a b, R a b -> res_rel R (foldM f a l) (foldM g b l).
Proof.
  induction l as [|x l IH]; simpl; intros H a b Hab; auto.
  eapply bind_rel; [apply H; auto|]. intros; apply IH; auto.
Qed.
Lemma res_rel_weaken {A B} (R Q : A -> B -> Prop) x y :
  (forall a b, R a b -> Q a b) -> res_rel R x y -> res_rel Q x y.
Proof. destruct x, y; simpl; auto. Qed.
Lemma res_rel_ok_l {A B} (R : A -> B -> Prop) a y :
  res_rel R (Ok a) y -> exists b, y = Ok b /\ R a b.
Proof. destruct y; simpl; intros; [eauto|tauto]. Qed.
Lemma res_rel_ok_r {A B} (R : A -> B -> Prop) x b :
  res_rel R x (Ok b) -> exists a, x = Ok a /\ R a b.
Proof. destruct x; simpl; intros; [eauto|tauto]. Qed.

Lemma mapM_len {A B} (f : A -> res B) l l' : mapM f l = Ok l' -> zlen l' = zlen l.
Proof.
  revert l'; induction l as [|x r IH]; simpl; intros l' H.
  - inversion H; auto.
  - apply bind_ok in H as (y & _ & H). apply bind_ok in H as (ys & H1 & H). inversion H; subst.
    rewrite !zlen_cons, (IH _ H1); auto.
Qed.
Lemma mapM_In {A B} (f : A -> res B) l l' y : mapM f l = Ok l' -> In y l' -> exists x, In x l /\ f x = Ok y.
Proof.
  revert l'; induction l as [|x r IH]; simpl; intros l' H HI.
  - inversion H; subst; destruct HI.
  - apply bind_ok in H as (z & E & H). apply bind_ok in H as (ys & H1 & H). inversion H; subst.
    destruct HI as [<-|HI]; [eauto|]. destruct (IH _ H1 HI) as (x' & ? & ?); eauto.
Qed.

Section Refine.
Context {E : AEnv} {S : SEnv}.
Notation arr := (arr Pos Src).

(* ------------------------------------------------------------------ frames *)
Lemma fadd_eq_len a b : zlen a = zlen b -> zlen (fadd_eq a b) = zlen a.
Proof.
  revert b; induction a as [|x a IH]; intros [|y b] H; cbn [fadd_eq]; auto; rewrite ?zlen_cons in *.
  rewrite IH; lia.
Qed.
Lemma fadd_len a b z : fadd a b = Ok z -> zlen z = zlen a.
Proof.
  unfold fadd. destruct (Z.eqb_spec (zlen a) (zlen b)).
  - intros H; inversion H; subst; apply fadd_eq_len; auto.
  - destruct b as [|y [|? ?]]; intros H; inversion H; subst. apply zlen_map.
Qed.
Lemma fadd_same_outcome a a' b : zlen a = zlen a' ->
  match fadd a b with Ok _ => True | Err e => fadd a' b = Err e end /\
  match fadd a' b with Ok _ => True | Err e => fadd a b = Err e end.
Proof.
  intros H; unfold fadd; rewrite <- H. destruct (zlen a =? zlen b); auto.
  destruct b as [|y [|? ?]]; auto.
Qed.
Lemma fit_len d f f' : fit d f = Ok f' -> zlen f' = Z.max 0 d.
Proof.
  unfold fit. destruct (Z.eqb_spec (zlen f) d).
  - intros H; inversion H; subst; pose proof (zlen_nonneg f'); lia.
  - destruct f as [|x [|? ?]]; intros H; inversion H; subst. apply zlen_zrep.
Qed.
Lemma zlen_zeros d : zlen (zeros d) = Z.max 0 d.
Proof. apply zlen_zrep. Qed.

(* ------------------------------------------------------------------ signals vs time lines *)
Definition dims_of (s : signals) : dims := map (fun kv => (fst kv, fst (snd kv))) s.

Lemma dget_dims_of s k : dget (dims_of s) k = option_map fst (dget s k).
Proof.
  induction s as [|[k' [d b]] r IH]; simpl; auto. destruct (String.eqb k k'); auto.
Qed.
Lemma dkeys_dims_of s : dkeys (dims_of s) = dkeys s.
Proof. unfold dkeys, dims_of; rewrite map_map; reflexivity. Qed.
Lemma dims_of_dset s k d b b' : dget s k = Some (d, b) -> dims_of (dset s k (d, b')) = dims_of s.
Proof.
  induction s as [|[k' [d1 b1]] r IH]; simpl; [discriminate|].
  destruct (String.eqb_spec k k'); simpl; intros H.
  - inversion H; subst; auto.
  - f_equal; auto.
Qed.

(** buffers of length N hold the time line from time [off] on *)
Definition sig_rel (N off : Z) (ds : dims) (tl : timeline) (s : signals) : Prop :=
  dims_of s = ds /\ NoDup (dkeys s) /\
  forall nm d buf, dget s nm = Some (d, buf) ->
    zlen buf = N /\ forall l, 0 <= l < N -> zget buf l = Some (tl nm (l + off)).

(** every frame has the width of its signal *)
Definition wide (ds : dims) (tl : timeline) : Prop :=
  forall nm d t, dget ds nm = Some d -> zlen (tl nm t) = Z.max 0 d.
(** nothing has been written at times >= T *)
Definition quiet (ds : dims) (tl : timeline) (T : Z) : Prop :=
  forall nm d t, dget ds nm = Some d -> T <= t -> tl nm t = zeros d.

Lemma sig_rel_dget N off ds tl s nm : sig_rel N off ds tl s ->
  (dget s nm = None /\ dget ds nm = None) \/
  exists d buf, dget s nm = Some (d, buf) /\ dget ds nm = Some d /\ zlen buf = N /\
    forall l, 0 <= l < N -> zget buf l = Some (tl nm (l + off)).
Proof.
  intros (H1 & H2 & H3). rewrite <- H1, dget_dims_of.
  destruct (dget s nm) as [[d buf]|] eqn:Eg; [right|left; auto].
  destruct (H3 _ _ _ Eg). exists d, buf; auto.
Qed.

Lemma sig_rel_slice N off ds tl s nm d buf a b : sig_rel N off ds tl s -> dget s nm = Some (d, buf) ->
  0 <= a <= b -> b <= N ->
  pyslice buf a b = map (tl nm) (zrange (a + off) (b + off)).
Proof.
  intros (H1 & H2 & H3) Eg Ha Hb. destruct (H3 _ _ _ Eg) as [HL HG].
  apply zget_ext; intros i. rewrite zget_pyslice_in by lia. rewrite zget_map, zget_zrange.
  replace (b + off - (a + off)) with (b - a) by lia.
  destruct (Z.leb_spec 0 i), (Z.ltb_spec i (b - a)); simpl; auto.
  rewrite HG by lia. do 2 f_equal; lia.
Qed.

Lemma sig_rel_dset N off ds tl tl' s nm d buf buf' : sig_rel N off ds tl s -> dget s nm = Some (d, buf) ->
  zlen buf' = N -> (forall l, 0 <= l < N -> zget buf' l = Some (tl' nm (l + off))) ->
  (forall nm' l, nm' <> nm -> 0 <= l < N -> tl' nm' (l + off) = tl nm' (l + off)) ->
  sig_rel N off ds tl' (dset s nm (d, buf')).
Proof.
  intros (H1 & H2 & H3) Eg HL HG HO. split; [|split].
  - rewrite dims_of_dset with (b := buf); auto.
  - erewrite dkeys_dset_mem; eauto.
  - intros nm' d' b' E'. rewrite dget_dset in E'. destruct (String.eqb_spec nm' nm).
    + inversion E'; subst; auto.
    + destruct (H3 _ _ _ E') as [L1 L2]. split; auto. intros l Hl. rewrite L2 by auto. f_equal.
      symmetry; apply HO; auto.
Qed.

Lemma expand_len n l l' : expand n l = Ok l' -> 0 <= n -> zlen l' = n.
Proof.
  unfold expand. destruct (Z.eqb_spec (zlen l) n).
  - intros H; inversion H; subst; auto.
  - destruct l as [|x [|? ?]]; intros H; inversion H; subst. rewrite zlen_zrep; lia.
Qed.

(** sig[name][..., a:b] = new on buffers and on time lines *)
Lemma sig_set_rel N off ds tl s nm a b new : sig_rel N off ds tl s -> 0 <= a <= b -> b <= N ->
  res_rel (fun s' tl' => sig_rel N off ds tl' s') (sig_set s nm a b new) (tl_write ds tl nm (a + off) (b - a) new).
Proof.
  intros HR Ha Hb. unfold sig_set, tl_write, dgetE.
  destruct (sig_rel_dget nm HR) as [[E1 E2]|(d & buf & E1 & E2 & HL & HG)]; rewrite E1, E2; simpl; auto.
  destruct (mapM (fit d) new) as [new'|e]; simpl; auto.
  unfold expand.
  destruct (Z.eqb_spec (zlen new') (b - a)) as [e|ne].
  - destruct (@pyslice_set_in _ buf a b new') as (buf' & -> & HL' & HG'); try lia. simpl.
    eapply sig_rel_dset; eauto; try lia.
    + intros l Hl. rewrite HG', String.eqb_refl.
      replace (l + off - (a + off)) with (l - a) by lia.
      destruct (Z.leb_spec a l), (Z.ltb_spec l b); simpl.
      * destruct (@zget_in_range _ new' (l - a)) as [x ->]; auto; lia.
      * rewrite (@zget_out _ new') by lia. apply HG; auto.
      * rewrite (@zget_neg _ new') by lia. apply HG; auto.
      * lia.
    + intros nm' l Hn Hl. destruct (String.eqb_spec nm' nm); [congruence|auto].
  - destruct new' as [|x [|? ?]].
    + unfold pyslice_set. rewrite !norm_idx_id by lia. replace (Z.max 0 (b - a)) with (b - a) by lia.
      destruct (Z.eqb_spec (zlen (@nil frame)) (b - a)); [contradiction|]. simpl; auto.
    + destruct (@pyslice_set_bcast _ buf a b x) as (buf' & -> & HL' & HG'); try lia. simpl.
      eapply sig_rel_dset; eauto; try lia.
      * intros l Hl. rewrite HG', String.eqb_refl.
        replace (l + off - (a + off)) with (l - a) by lia. rewrite zget_zrep.
        destruct (Z.leb_spec a l), (Z.ltb_spec l b), (Z.leb_spec 0 (l - a)), (Z.ltb_spec (l - a) (b - a));
          simpl; try lia; auto.
      * intros nm' l Hn Hl. destruct (String.eqb_spec nm' nm); [congruence|auto].
    + unfold pyslice_set. rewrite !norm_idx_id by lia. replace (Z.max 0 (b - a)) with (b - a) by lia.
      destruct (Z.eqb_spec (zlen (x :: f :: l)) (b - a)); [contradiction|]. simpl; auto.
Qed.

Lemma tl_write_wide ds tl nm t n new tl' : wide ds tl -> tl_write ds tl nm t n new = Ok tl' -> wide ds tl'.
Proof.
  intros HW H. unfold tl_write in H.
  apply bind_ok in H as (d & E1 & H). apply bind_ok in H as (n1 & E2 & H).
  apply bind_ok in H as (n2 & E3 & H). inversion H; subst; clear H.
  intros nm' d' u Eg. destruct (String.eqb_spec nm' nm); [|auto]. subst.
  destruct (zget n2 (u - t)) eqn:Ez; [|auto].
  unfold dgetE in E1; rewrite Eg in E1; inversion E1; subst.
  apply zget_In in Ez.
  assert (HI : In f n1).
  { unfold expand in E3. destruct (zlen n1 =? n); [inversion E3; subst; auto|].
    destruct n1 as [|x [|? ?]]; inversion E3; subst. unfold zrep in Ez. apply repeat_spec in Ez. subst; simpl; auto. }
  destruct (mapM_In _ _ _ E2 HI) as (x & _ & Ef). eapply fit_len; eauto.
Qed.
Lemma tl_write_quiet ds tl nm t n new tl' T : quiet ds tl T -> 0 <= n -> t + n <= T ->
  tl_write ds tl nm t n new = Ok tl' -> quiet ds tl' T.
Proof.
  intros HQ Hn HT H. unfold tl_write in H.
  apply bind_ok in H as (d & E1 & H). apply bind_ok in H as (n1 & E2 & H).
  apply bind_ok in H as (n2 & E3 & H). inversion H; subst; clear H.
  apply expand_len in E3; auto.
  intros nm' d' u Eg Hu. destruct (String.eqb_spec nm' nm); [|auto].
  rewrite zget_out by lia. auto.
Qed.
(** a write changes nothing outside its interval *)
Lemma tl_write_frame ds tl nm t n new tl' : 0 <= n -> tl_write ds tl nm t n new = Ok tl' ->
  forall nm' u, (nm' <> nm \/ u < t \/ t + n <= u) -> tl' nm' u = tl nm' u.
Proof.
  intros Hn H nm' u Hu. unfold tl_write in H.
  apply bind_ok in H as (d & E1 & H). apply bind_ok in H as (n1 & E2 & H).
  apply bind_ok in H as (n2 & E3 & H). inversion H; subst; clear H.
  apply expand_len in E3; auto.
  destruct (String.eqb_spec nm' nm); [|auto].
  destruct Hu as [Hu|[Hu|Hu]]; [congruence|rewrite zget_neg by lia; auto|rewrite zget_out by lia; auto].
Qed.

(** sig[name][..., a:a+1] += y *)
Lemma sig_add_rel N off ds tl s nm a y : sig_rel N off ds tl s -> 0 <= a -> a + 1 <= N ->
  res_rel (fun s' tl' => sig_rel N off ds tl' s') (sig_add s nm a (a + 1) [y]) (tl_add ds tl nm (a + off) y).
Proof.
  intros HR Ha Hb. unfold sig_add, tl_add, dgetE.
  destruct (sig_rel_dget nm HR) as [[E1 E2]|(d & buf & E1 & E2 & HL & HG)]; rewrite E1, E2; simpl; auto.
  unfold slice_add.
  assert (Es : pyslice buf a (a + 1) = [tl nm (a + off)]).
  { rewrite (sig_rel_slice _ HR E1) by lia. rewrite zrange_cons by lia. rewrite zrange_empty by lia. reflexivity. }
  rewrite Es. change (zlen [tl nm (a + off)] =? zlen [y]) with true. cbn [fadd_list].
  destruct (fadd (tl nm (a + off)) y) as [z|e] eqn:Ef; simpl; auto.
  destruct (@pyslice_set_bcast _ buf a (a + 1) z) as (buf' & -> & HL' & HG'); try lia. simpl.
  eapply sig_rel_dset; eauto; try lia.
  - intros l Hl. rewrite HG', String.eqb_refl.
    destruct (Z.leb_spec a l), (Z.ltb_spec l (a + 1)), (Z.eqb_spec (l + off) (a + off)); simpl; try lia; auto.
  - intros nm' l Hn Hl. destruct (String.eqb_spec nm' nm); [congruence|auto].
Qed.
Lemma tl_add_frame ds tl nm t y tl' : tl_add ds tl nm t y = Ok tl' ->
  forall nm' u, (nm' <> nm \/ u <> t) -> tl' nm' u = tl nm' u.
Proof.
  unfold tl_add; intros H nm' u Hu. apply bind_ok in H as (d & E1 & H). apply bind_ok in H as (z & E2 & H).
  inversion H; subst. destruct (String.eqb_spec nm' nm), (Z.eqb_spec u t); simpl; auto.
  subst; destruct Hu; congruence.
Qed.
Lemma tl_add_wide ds tl nm t y tl' : wide ds tl -> tl_add ds tl nm t y = Ok tl' -> wide ds tl'.
Proof.
  unfold tl_add; intros HW H. apply bind_ok in H as (d & E1 & H). apply bind_ok in H as (z & E2 & H).
  inversion H; subst. intros nm' d' u Eg. destruct (String.eqb_spec nm' nm), (Z.eqb_spec u t); simpl; auto.
  subst. apply fadd_len in E2. rewrite E2; auto.
Qed.
Lemma tl_add_quiet ds tl nm t y tl' T : quiet ds tl T -> t < T -> tl_add ds tl nm t y = Ok tl' -> quiet ds tl' T.
Proof.
  intros HQ HT H nm' d u Eg Hu. erewrite tl_add_frame by (eauto; right; lia). auto.
Qed.

(* ------------------------------------------------------------------ sources *)
Lemma run_free_rel N off ds n a b (acc : coll E * signals) (acc' : coll E * timeline) name :
  0 <= a <= b -> b <= N -> n = b - a ->
  fst acc = fst acc' /\ sig_rel N off ds (snd acc') (snd acc) ->
  res_rel (fun x y => fst x = fst y /\ sig_rel N off ds (snd y) (snd x))
    (run_free a b n acc name) (ref_free ds (a + off) n acc' name).
Proof.
  intros Ha Hb Hn [H1 H2]. destruct acc as [c s], acc' as [c' tl]; simpl in H1, H2; subst c'.
  unfold run_free, ref_free. apply bind_rel_eq; intros ar _.
  destruct (a_source ar) as [src|]; simpl; auto.
  destruct (src_get src n) as [src' xs].
  eapply bind_rel; [subst n; apply sig_set_rel; eauto|].
  intros s' tl' HR; simpl; auto.
Qed.

(* ------------------------------------------------------------------ propagation of one sample *)
Lemma run_pair_rel i N off ds a (acc : dict (dict fir) * signals) (acc' : dict (dict fir) * timeline) sm :
  0 <= a -> a + 1 <= N ->
  fst acc = fst acc' /\ sig_rel N off ds (snd acc') (snd acc) ->
  res_rel (fun x y => fst x = fst y /\ sig_rel N off ds (snd y) (snd x))
    (run_pair i a (a + 1) a (a + 1) acc sm)
    (ref_pair (save_source_contributions i) ds (a + off) acc' sm).
Proof.
  intros Ha Hb [H1 H2]. destruct acc as [fs s], acc' as [fs' tl]; simpl in H1, H2; subst fs'.
  unfold run_pair, ref_pair. destruct sm as [sa ma]; cbn [fst snd]. apply bind_rel_eq; intros f _.
  unfold sig_get, dgetE.
  destruct (sig_rel_dget (a_name sa) H2) as [[E1 E2]|(d & buf & E1 & E2 & HL & HG)]; rewrite E1, E2; cbn [bind res_rel fst snd]; auto.
  assert (Es : pyslice buf a (a + 1) = [tl (a_name sa) (a + off)]).
  { rewrite (sig_rel_slice _ H2 E1) by lia. rewrite zrange_cons by lia. rewrite zrange_empty by lia. reflexivity. }
  rewrite Es. cbn [fir_process]. destruct (fir_step f (tl (a_name sa) (a + off))) as [f' y].
  apply bind_rel_eq; intros fs' _.
  eapply bind_rel; [apply sig_add_rel; eauto|]. intros s1 tl1 HR1.
  eapply bind_rel with (R := fun s' tl' => sig_rel N off ds tl' s').
  - destruct (save_source_contributions i); simpl; auto.
    replace 1 with (a + 1 - a) at 2 by lia. apply sig_set_rel; auto; lia.
  - intros s2 tl2 HR2; simpl; auto.
Qed.

(* ------------------------------------------------------------------ processor *)
Lemma view_rel N off ds tl s a b : sig_rel N off ds tl s -> 0 <= a <= b -> b <= N ->
  view s a b = window ds tl (a + off) (b + off).
Proof.
  intros HR Ha Hb. pose proof HR as (H1 & H2 & H3). rewrite <- H1.
  unfold dims_of, view, window. rewrite map_map.
  apply map_ext_in. intros [k [d buf]] HI. simpl. f_equal.
  assert (Eg : dget s k = Some (d, buf)) by (apply In_dget; auto).
  rewrite (sig_rel_slice _ HR Eg) by lia. auto.
Qed.

Lemma process_rel N off ds tl s p idx :
  sig_rel N off ds tl s -> 0 <= pr_bs p -> 0 <= pr_hist p -> pr_hist p <= idx -> idx + pr_bs p <= N ->
  res_rel (fun x y => fst x = fst y /\ sig_rel N off ds (snd y) (snd x))
    (process p s idx) (ref_process ds (idx + off) p tl).
Proof.
  intros HR Hb0 Hh Hi HN. unfold process, ref_process.
  rewrite (view_rel HR) by lia.
  replace (idx - pr_hist p + off) with (idx + off - pr_hist p) by lia. destruct (pr_step p (pr_state p) _) as [ps' outs].
  eapply bind_rel with (R := fun s' tl' => sig_rel N off ds tl' s').
  - apply foldM_rel; auto. intros a b x _ HR'.
    replace (pr_bs p) with (idx + pr_bs p - idx) at 2 by lia. apply sig_set_rel; auto; lia.
  - intros s' tl' HR'; simpl; auto.
Qed.

Definition proc_ok (B C mbs : Z) (p : proc) : Prop :=
  1 <= pr_bs p <= mbs /\ 0 <= pr_hist p <= B - mbs + 1 /\ (2 <= C \/ mbs = 1).

Lemma run_procs_rel N off ds idx g (acc : list proc * signals) (acc' : list proc * timeline) p :
  0 <= g -> off = g + 1 - idx -> 1 <= pr_bs p -> 0 <= pr_hist p <= idx ->
  (pr_bs p - 1 <= g -> idx + pr_bs p <= N) ->
  fst acc = fst acc' /\ sig_rel N off ds (snd acc') (snd acc) ->
  res_rel (fun x y => fst x = fst y /\ sig_rel N off ds (snd y) (snd x))
    (run_procs idx g acc p) (ref_procs ds (g + 1) acc' p).
Proof.
  intros Hg Ho Hb Hh HN [H1 H2]. destruct acc as [ps s], acc' as [ps' tl]; simpl in H1, H2; subst ps'.
  unfold run_procs, ref_procs.
  destruct (Z.eqb_spec (pr_bs p) 0); [lia|].
  assert (Em : (g mod pr_bs p =? pr_bs p - 1) = ((g + 1) mod pr_bs p =? 0)).
  { destruct (Z.eqb_spec (g mod pr_bs p) (pr_bs p - 1)) as [e|ne];
    destruct (Z.eqb_spec ((g + 1) mod pr_bs p) 0) as [e'|ne']; auto; exfalso.
    - apply ne'. rewrite Z.add_mod by lia. rewrite e.
      destruct (Z.eq_dec (pr_bs p) 1) as [e1|n1]; [rewrite e1; reflexivity|].
      rewrite (Z.mod_small 1) by lia. replace (pr_bs p - 1 + 1) with (pr_bs p) by lia.
      apply Z.mod_same; lia.
    - apply ne. apply Z.mod_divide in e'; [|lia]. destruct e' as [q Hq].
      replace g with (pr_bs p - 1 + (q - 1) * pr_bs p) by lia.
      rewrite Z.mod_add by lia. apply Z.mod_small; lia. }
  rewrite <- Em. destruct (Z.eqb_spec (g mod pr_bs p) (pr_bs p - 1)) as [e|ne]; simpl; auto.
  assert (pr_bs p - 1 <= g) by (rewrite <- e; apply Z.mod_le; lia).
  eapply bind_rel.
  - replace (g + 1) with (idx + off) by lia. apply process_rel; eauto; lia.
  - intros [p1 s1] [p2 tl2] [Hp HR]; simpl in *; subst; auto.
Qed.

(* ------------------------------------------------------------------ one step without diagnostics *)
(** sim_step up to and including the propagation *)
Definition core_step (i : info) (st : sim) : res (coll E * signals * dict (dict fir) * list proc) :=
  c <- update (sm_coll st) (sm_n st) ;;
  pss <- foldM (run_procs (sm_idx st) (sm_n st)) ([], sm_sigs st) (sm_procs st) ;;
  let '(ps, s) := pss in
  csf <- propagate i c s (sm_flt st) (sm_idx st) ;;
  let '(c, s, fs) := csf in
  Ok (c, s, fs, ps).

Lemma sim_step_core i mbs st :
  sim_step i mbs st =
  (x <- core_step i st ;;
   let '(c, s, fs, ps) := x in
   let last_block := sim_chunk_size i + sim_buffer i <=? sm_idx st + mbs in
   cp <- current_proc ps ;;
   dg <- save_data dsave cp s (sm_idx st) (sm_n st) last_block (sm_diags st) ;;
   let s := if last_block then reset_signals i s else s in
   let idx := if last_block then sm_idx st - sim_chunk_size i else sm_idx st in
   do <- dispatch dout (plot_output i) (dg, sm_out st) ;;
   Ok (mkSim c s (idx + 1) fs ps (fst do) (snd do) (sm_n st + 1))).
Proof.
  unfold sim_step, core_step.
  destruct (update (sm_coll st) (sm_n st)); simpl; auto.
  destruct (foldM _ _ _) as [[ps s]|]; simpl; auto.
  destruct (propagate _ _ _ _ _) as [[[c s'] fs]|]; simpl; auto.
Qed.

(** the index stays where all accesses are in range *)
Definition idx_ok (i : info) (mbs g idx : Z) : Prop :=
  let B := sim_buffer i in let C := sim_chunk_size i in
  B - mbs + 1 <= idx /\ idx <= B + C - 1 /\ (2 <= C -> idx <= Z.max (B + C - mbs) (B - g)).

Lemma idx_ok_step i mbs g idx : 1 <= sim_chunk_size i -> 1 <= mbs -> 0 <= g -> idx_ok i mbs g idx ->
  idx_ok i mbs (g + 1)
    ((if sim_chunk_size i + sim_buffer i <=? idx + mbs then idx - sim_chunk_size i else idx) + 1).
Proof.
  unfold idx_ok. intros. destruct (Z.leb_spec (sim_chunk_size i + sim_buffer i) (idx + mbs)); lia.
Qed.

(** what the buffered state and the reference state have in common at the start of step g *)
Record Rel (i : info) (mbs : Z) (ds : dims) (g : Z) (st : sim) (r : ref) : Prop := {
  rel_n : sm_n st = g;
  rel_coll : sm_coll st = r_coll r;
  rel_flt : sm_flt st = r_flt r;
  rel_procs : sm_procs st = r_procs r;
  rel_idx : idx_ok i mbs g (sm_idx st);
  rel_sig : sig_rel (sim_buffer i + sim_chunk_size i) (g + 1 - sm_idx st) ds (r_tl r) (sm_sigs st)
}.

Definition size_ok (i : info) (mbs : Z) : Prop :=
  1 <= sim_chunk_size i /\ 1 <= mbs /\ mbs <= sim_buffer i.

Lemma propagate_rel i N off ds c s fs idx tl :
  0 <= idx -> idx + 1 <= N -> sig_rel N off ds tl s ->
  res_rel (fun x y => fst (fst x) = r_coll y /\ snd x = r_flt y /\ sig_rel N off ds (r_tl y) (snd (fst x)))
    (propagate i c s fs idx)
    (ct <- foldM (ref_free ds (idx + off) 1) (c, tl) (c_free c) ;;
     let '(c, tl) := ct in
     combos <- mic_src_combos c ;;
     fs <- foldM (refresh_pair c) fs combos ;;
     ft <- foldM (ref_pair (save_source_contributions i) ds (idx + off)) (fs, tl) combos ;;
     Ok (mkRef c (snd ft) (fst ft) [])).
Proof.
  intros Hi HN HR. unfold propagate.
  eapply bind_rel.
  - apply (foldM_rel (fun (x : coll E * signals) (y : coll E * timeline) =>
                        fst x = fst y /\ sig_rel N off ds (snd y) (snd x))); [|simpl; auto].
    intros a b x _ Hab. apply run_free_rel; auto; lia.
  - intros [c1 s1] [c2 tl1] [Hc HR1]. simpl in Hc, HR1. subst c2.
    apply bind_rel_eq; intros combos _. apply bind_rel_eq; intros fs1 _.
    eapply bind_rel.
    + apply (foldM_rel (fun (x : dict (dict fir) * signals) (y : dict (dict fir) * timeline) =>
                        fst x = fst y /\ sig_rel N off ds (snd y) (snd x))); [|simpl; eauto].
      intros a b x _ Hab. apply run_pair_rel; auto; lia.
    + intros [f1 s2] [f2 tl2] [Hf HR2]; simpl in *; subst; auto.
Qed.

Lemma core_step_rel i mbs ds g st r : size_ok i mbs -> 0 <= g ->
  Rel i mbs ds g st r -> Forall (proc_ok (sim_buffer i) (sim_chunk_size i) mbs) (sm_procs st) ->
  res_rel (fun x y => fst (fst (fst x)) = r_coll y /\ snd (fst x) = r_flt y /\ snd x = r_procs y /\
             sig_rel (sim_buffer i + sim_chunk_size i) (g + 1 - sm_idx st) ds (r_tl y) (snd (fst (fst x))))
    (core_step i st) (ref_step (save_source_contributions i) ds g r).
Proof.
  intros (HC & Hm & HB) Hg [Rn Rc Rf Rp Ri Rs] HP.
  unfold core_step, ref_step. rewrite Rn, Rc, <- Rp, <- Rf.
  apply bind_rel_eq; intros c Ec.
  eapply bind_rel.
  - apply (foldM_rel (fun (x : list proc * signals) (y : list proc * timeline) =>
             fst x = fst y /\ sig_rel (sim_buffer i + sim_chunk_size i) (g + 1 - sm_idx st) ds (snd y) (snd x)));
      [|simpl; auto].
    intros a b p Hin Hab. rewrite Forall_forall in HP. destruct (HP _ Hin) as (H1 & H2 & H3).
    unfold idx_ok in Ri. apply run_procs_rel with (off := g + 1 - sm_idx st); auto; lia.
  - intros [ps s] [ps' tl] [Hps HR]. simpl in Hps, HR. subst ps'.
    unfold idx_ok in Ri.
    pose proof (@propagate_rel i (sim_buffer i + sim_chunk_size i) (g + 1 - sm_idx st) ds c s (sm_flt st) (sm_idx st) tl) as HPr.
    assert (HPr' := HPr ltac:(lia) ltac:(lia) HR). clear HPr.
    replace (sm_idx st + (g + 1 - sm_idx st)) with (g + 1) in HPr' by lia.
    destruct (propagate i c s (sm_flt st) (sm_idx st)) as [[[c1 s1] f1]|e]; cbn [bind].
    + apply res_rel_ok_l in HPr' as (y & Ey & Hy).
      apply bind_ok in Ey as ([c2 tl2] & Ect & Ey). rewrite Ect; cbn [bind].
      apply bind_ok in Ey as (combos & Eco & Ey). rewrite Eco; cbn [bind].
      apply bind_ok in Ey as (fs2 & Ef & Ey). rewrite Ef; cbn [bind].
      apply bind_ok in Ey as (ft & Eft & Ey). rewrite Eft; cbn [bind].
      inversion Ey; subst y; clear Ey. simpl in *. tauto.
    + destruct (foldM (ref_free ds (g + 1) 1) (c, tl) (c_free c)) as [[c2 tl2]|]; cbn [bind] in *; auto.
      destruct (mic_src_combos c2) as [combos|]; cbn [bind] in *; auto.
      destruct (foldM (refresh_pair c2) (sm_flt st) combos) as [fs2|]; cbn [bind] in *; auto.
      destruct (foldM (ref_pair (save_source_contributions i) ds (g + 1)) (fs2, tl2) combos); cbn [bind] in *; auto.
Qed.

(* ------------------------------------------------------------------ buffer shift *)
Lemma reset_rel i ds tl s off : 1 <= sim_buffer i -> 0 <= sim_chunk_size i ->
  sig_rel (sim_buffer i + sim_chunk_size i) off ds tl s ->
  quiet ds tl (sim_buffer i + sim_chunk_size i + off) ->
  sig_rel (sim_buffer i + sim_chunk_size i) (off + sim_chunk_size i) ds tl (reset_signals i s).
Proof.
  intros HB HC (H1 & H2 & H3) HQ.
  assert (Hk : dkeys (reset_signals i s) = dkeys s) by (unfold dkeys, reset_signals; rewrite map_map; reflexivity).
  split; [|split].
  - rewrite <- H1. unfold dims_of, reset_signals. rewrite map_map. reflexivity.
  - rewrite Hk; auto.
  - intros nm d buf' Eg. apply dget_In in Eg. unfold reset_signals in Eg.
    apply in_map_iff in Eg as ([k [d0 buf]] & E0 & HI). simpl in E0. inversion E0; subst nm d buf'; clear E0.
    assert (Eg : dget s k = Some (d0, buf)) by (apply In_dget; auto).
    destruct (H3 _ _ _ Eg) as [HL HG].
    assert (Hd : dget ds k = Some d0) by (rewrite <- H1, dget_dims_of, Eg; reflexivity).
    assert (HN : norm_idx (zlen buf) (- sim_buffer i) = sim_chunk_size i)
      by (unfold norm_idx; destruct (Z.ltb_spec (- sim_buffer i) 0); lia).
    assert (HN2 : norm_idx (zlen buf) (zlen buf) = zlen buf) by (apply norm_idx_id; pose proof (zlen_nonneg buf); lia).
    split.
    + rewrite zlen_app, zlen_pyslice, zlen_zrep, HN, HN2. lia.
    + intros l Hl. rewrite zget_app, zlen_pyslice, HN, HN2.
      replace (Z.max 0 (zlen buf - sim_chunk_size i)) with (sim_buffer i) by lia.
      destruct (Z.ltb_spec l (sim_buffer i)).
      * rewrite zget_pyslice. cbv zeta. rewrite HN, HN2, HL.
        destruct (Z.leb_spec 0 l), (Z.ltb_spec l (sim_buffer i + sim_chunk_size i - sim_chunk_size i)); simpl; try lia.
        rewrite HG by lia. do 2 f_equal; lia.
      * rewrite zget_zrep.
        destruct (Z.leb_spec 0 (l - sim_buffer i)), (Z.ltb_spec (l - sim_buffer i) (sim_chunk_size i)); simpl; try lia.
        f_equal. symmetry. apply HQ; auto; lia.
Qed.

(* ------------------------------------------------------------------ reference steps: width and silence ahead *)
Lemma foldM_bind_inv {A B} (f : A -> B -> res A) (P : A -> Prop) l acc r :
  P acc -> (forall a x a', P a -> f a x = Ok a' -> P a') -> foldM f acc l = Ok r -> P r.
Proof. intros; eapply foldM_inv; eauto. Qed.

Definition tl_inv (ds : dims) (T : Z) (tl : timeline) : Prop := wide ds tl /\ quiet ds tl T.

Lemma ref_free_inv ds t n acc nm acc' T : 0 <= n -> t + n <= T ->
  tl_inv ds T (snd acc) -> ref_free ds t n acc nm = Ok acc' -> tl_inv ds T (snd acc').
Proof.
  intros Hn HT [HW HQ] H. destruct acc as [c tl]. unfold ref_free in H.
  apply bind_ok in H as (ar & _ & H). destruct (a_source ar); [|discriminate].
  destruct (src_get s n) as [s' xs]. apply bind_ok in H as (tl' & E1 & H). inversion H; subst; simpl in *.
  split; [eapply tl_write_wide; eauto|eapply tl_write_quiet; eauto].
Qed.
Lemma ref_pair_inv ct ds t acc sm acc' T : t < T ->
  tl_inv ds T (snd acc) -> ref_pair ct ds t acc sm = Ok acc' -> tl_inv ds T (snd acc').
Proof.
  intros HT [HW HQ] H. destruct acc as [fs tl]. unfold ref_pair in H.
  apply bind_ok in H as (f & _ & H). apply bind_ok in H as (d & _ & H).
  destruct (fir_step f _) as [f' y]. apply bind_ok in H as (fs' & _ & H).
  apply bind_ok in H as (tl1 & E1 & H). apply bind_ok in H as (tl2 & E2 & H). inversion H; subst; simpl in *.
  assert (tl_inv ds T tl1) as [HW1 HQ1] by (split; [eapply tl_add_wide; eauto|eapply tl_add_quiet; eauto]).
  destruct ct; [|inversion E2; subst; split; auto].
  split; [eapply tl_write_wide; eauto|eapply tl_write_quiet; eauto; lia].
Qed.
Lemma ref_process_inv ds t p tl r T : 0 <= pr_bs p -> t + pr_bs p <= T ->
  tl_inv ds T tl -> ref_process ds t p tl = Ok r -> tl_inv ds T (snd r).
Proof.
  intros Hb HT HI H. unfold ref_process in H. destruct (pr_step p _ _) as [ps' outs].
  apply bind_ok in H as (tl' & E1 & H). inversion H; subst; simpl.
  eapply (foldM_inv (fun tl o => tl_write ds tl (fst o) t (pr_bs p) (snd o)) (tl_inv ds T)) in E1; auto.
  intros a x a' _ [HW HQ] Ew. split; [eapply tl_write_wide; eauto|eapply tl_write_quiet; eauto].
Qed.
Lemma ref_procs_inv ds g acc p acc' T bs : 0 <= g -> 1 <= pr_bs p <= bs ->
  (bs - 1 <= g -> g + 1 + bs <= T) -> (g mod pr_bs p = pr_bs p - 1 -> g + 1 + pr_bs p <= T) ->
  tl_inv ds T (snd acc) -> ref_procs ds (g + 1) acc p = Ok acc' -> tl_inv ds T (snd acc').
Proof.
  intros Hg Hb HT HT2 HI H. destruct acc as [ps tl]. unfold ref_procs in H.
  destruct (pr_bs p =? 0); [discriminate|].
  destruct (Z.eqb_spec ((g + 1) mod pr_bs p) 0) as [e|].
  - apply bind_ok in H as (r & Er & H). inversion H; subst; simpl in *.
    eapply ref_process_inv; [| |exact HI|exact Er]; [lia|]. apply HT2.
    apply Z.mod_divide in e; [|lia]. destruct e as [q Hq].
    replace g with (pr_bs p - 1 + (q - 1) * pr_bs p) by lia.
    rewrite Z.mod_add by lia. apply Z.mod_small; lia.
  - inversion H; subst; auto.
Qed.

(** processors keep their block size and window length *)
Lemma ref_procs_static ds t l : forall acc acc',
  foldM (ref_procs ds t) acc l = Ok acc' ->
  exists l', fst acc' = fst acc ++ l' /\
    map (fun p => (pr_bs p, pr_hist p)) l' = map (fun p => (pr_bs p, pr_hist p)) l.
Proof.
  induction l as [|p l IH]; cbn [foldM]; intros acc acc' H.
  - inversion H; subst. exists []; rewrite app_nil_r; auto.
  - apply bind_ok in H as (a & E1 & H). destruct (IH _ _ H) as (l' & E2 & E3).
    destruct acc as [ps tl]. unfold ref_procs in E1. destruct (pr_bs p =? 0); [discriminate|].
    destruct (_ =? 0).
    + apply bind_ok in E1 as (r & Er & E1). inversion E1; subst a; clear E1. simpl in E2.
      exists (fst r :: l'). rewrite E2, <- app_assoc; split; auto. simpl. f_equal; auto.
      unfold ref_process in Er. destruct (pr_step p _ _). apply bind_ok in Er as (tl' & _ & Er).
      inversion Er; subst; auto.
    + inversion E1; subst a; clear E1. simpl in E2. exists (p :: l'). rewrite E2, <- app_assoc; split; auto.
      simpl; f_equal; auto.
Qed.

Lemma Forall_proc_ok_static B C mbs (l l' : list proc) :
  map (fun p => (pr_bs p, pr_hist p)) l' = map (fun p => (pr_bs p, pr_hist p)) l ->
  Forall (proc_ok B C mbs) l -> Forall (proc_ok B C mbs) l'.
Proof.
  revert l'; induction l as [|p l IH]; intros [|p' l'] Em HF; inversion Em; auto.
  inversion HF; subst. constructor; auto. unfold proc_ok in *. rewrite H0, H1; auto.
Qed.

(** nothing is written further ahead than this at the start of step g *)
Definition quiet_from (procs : list proc) (mbs g : Z) : Z :=
  match procs with [] => g + 1 | _ => if g <? mbs then g + 1 else g + mbs end.

Lemma ref_step_inv ct ds g r r' mbs : 0 <= g -> 1 <= mbs ->
  (forall p, In p (r_procs r) -> pr_bs p = mbs) ->
  tl_inv ds (quiet_from (r_procs r) mbs g) (r_tl r) -> ref_step ct ds g r = Ok r' ->
  tl_inv ds (quiet_from (r_procs r) mbs (g + 1)) (r_tl r') /\
  map (fun p => (pr_bs p, pr_hist p)) (r_procs r') = map (fun p => (pr_bs p, pr_hist p)) (r_procs r).
Proof.
  intros Hg Hm HP HI H. unfold ref_step in H.
  apply bind_ok in H as (c & _ & H). apply bind_ok in H as ([ps tl] & E1 & H).
  apply bind_ok in H as ([c2 tl2] & E2 & H). apply bind_ok in H as (combos & _ & H).
  apply bind_ok in H as (fs & _ & H). apply bind_ok in H as (ft & E3 & H). inversion H; subst r'; clear H; simpl.
  set (T := quiet_from (r_procs r) mbs (g + 1)).
  assert (HT : g + 2 <= T /\ quiet_from (r_procs r) mbs g <= T).
  { unfold T, quiet_from. destruct (r_procs r); [lia|].
    destruct (Z.ltb_spec (g + 1) mbs), (Z.ltb_spec g mbs); lia. }
  assert (HI0 : tl_inv ds T (r_tl r)).
  { destruct HI as [HW HQ]; split; auto. intros nm d t Eg Ht. apply HQ; auto. lia. }
  assert (HI1 : tl_inv ds T tl).
  { eapply (foldM_inv (ref_procs ds (g + 1)) (fun x => tl_inv ds T (snd x))) in E1; auto.
    intros a p a' Hin Ha Er. pose proof (HP _ Hin) as Hb.
    eapply ref_procs_inv with (bs := mbs); try exact Er; eauto; try lia.
    - intros. unfold T, quiet_from. destruct (r_procs r) as [|? ?]; [destruct Hin|].
      destruct (Z.ltb_spec (g + 1) mbs); lia.
    - intros He. assert (mbs - 1 <= g) by (rewrite <- Hb, <- He; apply Z.mod_le; lia).
      unfold T, quiet_from. destruct (r_procs r) as [|? ?]; [destruct Hin|].
      destruct (Z.ltb_spec (g + 1) mbs); lia. }
  assert (HI2 : tl_inv ds T tl2).
  { eapply (foldM_inv (ref_free ds (g + 1) 1) (fun x => tl_inv ds T (snd x))) in E2; auto.
    intros a p a' Hin Ha Er. eapply ref_free_inv; try exact Er; auto; lia. }
  split.
  - eapply (foldM_inv (ref_pair ct ds (g + 1)) (fun x => tl_inv ds T (snd x))) in E3; auto.
    intros a p a' Hin Ha Er. eapply ref_pair_inv; try exact Er; auto; lia.
  - apply ref_procs_static in E1 as (l' & E4 & Em). simpl in E4. subst; auto.
Qed.

(* ------------------------------------------------------------------ one full step *)
Lemma sim_step_rel i mbs ds g st r st' : size_ok i mbs -> 0 <= g ->
  Rel i mbs ds g st r -> Forall (proc_ok (sim_buffer i) (sim_chunk_size i) mbs) (sm_procs st) ->
  (forall p, In p (r_procs r) -> pr_bs p = mbs) ->
  tl_inv ds (quiet_from (r_procs r) mbs g) (r_tl r) ->
  sim_step i mbs st = Ok st' ->
  exists r', ref_step (save_source_contributions i) ds g r = Ok r' /\ Rel i mbs ds (g + 1) st' r'.
Proof.
  intros Hs Hg HR HP Hbs HI H. rewrite sim_step_core in H.
  pose proof (core_step_rel Hs Hg HR HP) as HC.
  apply bind_ok in H as ([[[c s] fs] ps] & E1 & H). rewrite E1 in HC.
  apply res_rel_ok_l in HC as (r' & Er & Hc & Hf & Hp & Hsr). cbn [fst snd] in *.
  exists r'; split; auto.
  apply bind_ok in H as (cp & _ & H). apply bind_ok in H as (dg & _ & H).
  apply bind_ok in H as (do & _ & H). inversion H; subst st'; clear H.
  assert (Hm1 : 1 <= mbs) by (unfold size_ok in Hs; lia).
  destruct (@ref_step_inv _ _ _ _ _ _ Hg Hm1 Hbs HI Er) as [[HW HQ] HS].
  destruct HR as [Rn Rc Rf Rp Ri Rs]. destruct Hs as (HC1 & Hm & HB).
  constructor; simpl; auto; try lia.
  - apply idx_ok_step; auto.
  - destruct (Z.leb_spec (sim_chunk_size i + sim_buffer i) (sm_idx st + mbs)).
    + replace (g + 1 + 1 - (sm_idx st - sim_chunk_size i + 1)) with (g + 1 - sm_idx st + sim_chunk_size i) by lia.
      apply reset_rel; auto; try lia.
      intros nm d t Eg Ht. apply HQ; auto. etransitivity; [|exact Ht].
      unfold quiet_from. unfold idx_ok in Ri. destruct (r_procs r) as [|p l] eqn:El; [lia|].
      rewrite Rp in HP. apply Forall_inv in HP. unfold proc_ok in HP.
      destruct (Z.ltb_spec (g + 1) mbs); lia.
    + replace (g + 1 + 1 - (sm_idx st + 1)) with (g + 1 - sm_idx st) by lia. auto.
Qed.

End Refine.
