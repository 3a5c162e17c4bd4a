(** Lemmas about the primitives of PyBase. *)
Require Import Verif.PyBase.
From Coq Require FinFun.
Set Implicit Arguments.
Ltac Zify.zify_post_hook ::= Z.div_mod_to_equations.

Section L.
Context {A : Type}.
Implicit Types l : list A.

Lemma zlen_nonneg l : 0 <= zlen l. Proof. unfold zlen; lia. Qed.
Lemma zlen_nil : zlen (@nil A) = 0. Proof. reflexivity. Qed.
Lemma zlen_cons x l : zlen (x :: l) = 1 + zlen l. Proof. unfold zlen; cbn [length]; lia. Qed.
Lemma zlen_app l1 l2 : zlen (l1 ++ l2) = zlen l1 + zlen l2.
Proof. unfold zlen; rewrite app_length; lia. Qed.
Lemma zlen_zrep n (x : A) : zlen (zrep n x) = Z.max 0 n.
Proof. unfold zlen, zrep; rewrite repeat_length; lia. Qed.
Lemma zlen_firstn n l : zlen (firstn (Z.to_nat n) l) = Z.min (Z.max 0 n) (zlen l).
Proof. unfold zlen; rewrite firstn_length; lia. Qed.
Lemma zlen_skipn n l : zlen (skipn (Z.to_nat n) l) = Z.max 0 (zlen l - Z.max 0 n).
Proof. unfold zlen; rewrite skipn_length; lia. Qed.

Lemma zget_nth l i : 0 <= i -> zget l i = nth_error l (Z.to_nat i).
Proof. intros; unfold zget; destruct (Z.ltb_spec i 0); [lia|reflexivity]. Qed.
Lemma zget_neg l i : i < 0 -> zget l i = None.
Proof. intros; unfold zget; destruct (Z.ltb_spec i 0); [reflexivity|lia]. Qed.
Lemma zget_out l i : zlen l <= i -> zget l i = None.
Proof.
  intros; unfold zget; destruct (Z.ltb_spec i 0); [reflexivity|].
  apply nth_error_None; unfold zlen in *; lia.
Qed.
Lemma zget_some_range l i x : zget l i = Some x -> 0 <= i < zlen l.
Proof.
  unfold zget; destruct (Z.ltb_spec i 0); [discriminate|]; intros E.
  assert (nth_error l (Z.to_nat i) <> None) by congruence.
  apply nth_error_Some in H0; unfold zlen; lia.
Qed.
Lemma zget_none_range l i : zget l i = None -> i < 0 \/ zlen l <= i.
Proof.
  unfold zget; destruct (Z.ltb_spec i 0); [lia|]; intros E.
  apply nth_error_None in E; unfold zlen; lia.
Qed.
Lemma zget_in_range l i : 0 <= i < zlen l -> exists x, zget l i = Some x.
Proof.
  intros; destruct (zget l i) eqn:E; [eauto|].
  apply zget_none_range in E; lia.
Qed.
Lemma zget_nil i : zget (@nil A) i = None.
Proof. unfold zget; destruct (i <? 0); [|destruct (Z.to_nat i)]; reflexivity. Qed.
Lemma zget_cons x l i : zget (x :: l) i = if i =? 0 then Some x else zget l (i - 1).
Proof.
  unfold zget; destruct (Z.ltb_spec i 0), (Z.eqb_spec i 0), (Z.ltb_spec (i-1) 0); try lia; try reflexivity.
  - subst; reflexivity.
  - replace (Z.to_nat i) with (S (Z.to_nat (i-1))) by lia; reflexivity.
Qed.
Lemma zget_app l1 l2 i :
  zget (l1 ++ l2) i = if i <? zlen l1 then zget l1 i else zget l2 (i - zlen l1).
Proof.
  unfold zget; destruct (Z.ltb_spec i 0), (Z.ltb_spec i (zlen l1)); try reflexivity.
  - destruct (Z.ltb_spec (i - zlen l1) 0); [reflexivity|unfold zlen in *; lia].
  - apply nth_error_app1; unfold zlen in *; lia.
  - destruct (Z.ltb_spec (i - zlen l1) 0); [unfold zlen in *; lia|].
    rewrite nth_error_app2 by (unfold zlen in *; lia).
    f_equal; unfold zlen in *; lia.
Qed.
Lemma zget_zrep n (x : A) i : zget (zrep n x) i = if (0 <=? i) && (i <? n) then Some x else None.
Proof.
  destruct (Z.leb_spec 0 i); simpl.
  - destruct (Z.ltb_spec i n).
    + rewrite zget_nth by lia. unfold zrep.
      assert (H1 : (Z.to_nat i < Z.to_nat n)%nat) by lia.
      revert H1; generalize (Z.to_nat n), (Z.to_nat i); clear.
      induction n; intros m H; [lia|]; destruct m; simpl; [reflexivity|apply IHn; lia].
    + apply zget_out; rewrite zlen_zrep; lia.
  - apply zget_neg; lia.
Qed.
Lemma zget_firstn n l i :
  zget (firstn (Z.to_nat n) l) i = if i <? n then zget l i else None.
Proof.
  unfold zget; destruct (Z.ltb_spec i 0), (Z.ltb_spec i n); try reflexivity.
  - rewrite <- (firstn_skipn (Z.to_nat n) l) at 2.
    destruct (Nat.lt_ge_cases (Z.to_nat i) (length (firstn (Z.to_nat n) l))).
    + rewrite nth_error_app1; auto.
    + pose proof H1 as H2. apply nth_error_None in H2; rewrite H2.
      symmetry; apply nth_error_None; rewrite firstn_skipn.
      rewrite firstn_length in H1; lia.
  - apply nth_error_None; rewrite firstn_length; lia.
Qed.
Lemma zget_skipn n l i : 0 <= n ->
  zget (skipn (Z.to_nat n) l) i = if i <? 0 then None else zget l (n + i).
Proof.
  intros; unfold zget; destruct (Z.ltb_spec i 0), (Z.ltb_spec (n+i) 0); try reflexivity; try lia.
  destruct (Nat.le_gt_cases (Z.to_nat n) (length l)).
  - rewrite <- (firstn_skipn (Z.to_nat n) l) at 2.
    rewrite nth_error_app2 by (rewrite firstn_length; lia).
    f_equal; rewrite firstn_length; lia.
  - rewrite skipn_all2 by lia.
    replace (nth_error l (Z.to_nat (n+i))) with (@None A) by (symmetry; apply nth_error_None; lia).
    destruct (Z.to_nat i); reflexivity.
Qed.

Lemma zget_ext l1 l2 : (forall i, zget l1 i = zget l2 i) -> l1 = l2.
Proof.
  revert l2; induction l1 as [|x l1 IH]; intros [|y l2] H; auto.
  - specialize (H 0); discriminate.
  - specialize (H 0); discriminate.
  - f_equal.
    + specialize (H 0); cbn in H; congruence.
    + apply IH; intros i. destruct (Z.ltb_spec i 0).
      * rewrite !zget_neg by lia; reflexivity.
      * specialize (H (i+1)); rewrite !zget_cons in H.
        destruct (Z.eqb_spec (i+1) 0); [lia|].
        replace (i+1-1) with i in H by lia; exact H.
Qed.
Lemma zget_ext_range l1 l2 : zlen l1 = zlen l2 ->
  (forall i, 0 <= i < zlen l1 -> zget l1 i = zget l2 i) -> l1 = l2.
Proof.
  intros HL H; apply zget_ext; intros i.
  destruct (Z.ltb_spec i 0); [rewrite !zget_neg by lia; auto|].
  destruct (Z.ltb_spec i (zlen l1)); [apply H; lia|].
  rewrite !zget_out by lia; auto.
Qed.

Lemma norm_idx_range n i : 0 <= n -> 0 <= norm_idx n i <= n.
Proof. unfold norm_idx; destruct (Z.ltb_spec i 0); lia. Qed.
Lemma norm_idx_id n i : 0 <= i <= n -> norm_idx n i = i.
Proof. unfold norm_idx; destruct (Z.ltb_spec i 0); lia. Qed.

Lemma zlen_pyslice l a b :
  zlen (pyslice l a b) = Z.max 0 (norm_idx (zlen l) b - norm_idx (zlen l) a).
Proof.
  unfold pyslice. rewrite zlen_firstn, zlen_skipn.
  pose proof (norm_idx_range a (zlen_nonneg l)); pose proof (norm_idx_range b (zlen_nonneg l)); lia.
Qed.
Lemma zget_pyslice l a b i :
  let lo := norm_idx (zlen l) a in let hi := norm_idx (zlen l) b in
  zget (pyslice l a b) i = if (0 <=? i) && (i <? hi - lo) then zget l (lo + i) else None.
Proof.
  cbv zeta; unfold pyslice.
  pose proof (norm_idx_range a (zlen_nonneg l)).
  rewrite zget_firstn, zget_skipn by lia.
  destruct (Z.leb_spec 0 i), (Z.ltb_spec i 0),
    (Z.ltb_spec i (norm_idx (zlen l) b - norm_idx (zlen l) a)); simpl; try reflexivity; lia.
Qed.
(** in-range slices *)
Lemma zlen_pyslice_in l a b : 0 <= a <= b -> b <= zlen l -> zlen (pyslice l a b) = b - a.
Proof. intros; rewrite zlen_pyslice, !norm_idx_id by lia; lia. Qed.
Lemma zget_pyslice_in l a b i : 0 <= a <= b -> b <= zlen l ->
  zget (pyslice l a b) i = if (0 <=? i) && (i <? b - a) then zget l (a + i) else None.
Proof. intros; rewrite zget_pyslice; cbv zeta; rewrite !norm_idx_id by lia; reflexivity. Qed.

Lemma pyslice_set_in l a b new : 0 <= a <= b -> b <= zlen l -> zlen new = b - a ->
  exists l', pyslice_set l a b new = Ok l' /\ zlen l' = zlen l /\
    forall i, zget l' i = if (a <=? i) && (i <? b) then zget new (i - a) else zget l i.
Proof.
  intros Ha Hb Hn. unfold pyslice_set. rewrite !norm_idx_id by lia.
  replace (Z.max 0 (b-a)) with (b-a) by lia.
  rewrite Hn, Z.eqb_refl. eexists; split; [reflexivity|]; split.
  - rewrite !zlen_app, zlen_firstn, zlen_skipn, Hn; lia.
  - intros i. rewrite !zget_app, zlen_firstn, Hn.
    replace (Z.min (Z.max 0 a) (zlen l)) with a by lia.
    destruct (Z.ltb_spec i a), (Z.leb_spec a i); try lia; simpl.
    + rewrite zget_firstn. destruct (Z.ltb_spec i a); [reflexivity|lia].
    + destruct (Z.ltb_spec (i-a) (b-a)), (Z.ltb_spec i b); try lia; [reflexivity|].
      rewrite zget_skipn by lia.
      destruct (Z.ltb_spec (i - a - (b-a)) 0); [lia|]. f_equal; lia.
Qed.
Lemma pyslice_set_bcast l a b x : 0 <= a <= b -> b <= zlen l ->
  exists l', pyslice_set l a b [x] = Ok l' /\ zlen l' = zlen l /\
    forall i, zget l' i = if (a <=? i) && (i <? b) then Some x else zget l i.
Proof.
  intros Ha Hb. unfold pyslice_set. rewrite !norm_idx_id by lia.
  replace (Z.max 0 (b-a)) with (b-a) by lia.
  assert (E : (if zlen [x] =? b - a then Ok (firstn (Z.to_nat a) l ++ [x] ++ skipn (Z.to_nat (a + (b-a))) l)
           else Ok (firstn (Z.to_nat a) l ++ zrep (b-a) x ++ skipn (Z.to_nat (a + (b-a))) l))
         = Ok (firstn (Z.to_nat a) l ++ zrep (b-a) x ++ skipn (Z.to_nat (a + (b-a))) l)).
  { destruct (Z.eqb_spec (zlen [x]) (b-a)) as [e|]; auto.
    change (zlen [x]) with 1 in e. rewrite <- e; reflexivity. }
  rewrite E. eexists; split; [reflexivity|]; split.
  - rewrite !zlen_app, zlen_firstn, zlen_skipn, zlen_zrep; lia.
  - intros i. rewrite !zget_app, zlen_firstn, zlen_zrep.
    replace (Z.min (Z.max 0 a) (zlen l)) with a by lia.
    replace (Z.max 0 (b-a)) with (b-a) by lia.
    destruct (Z.ltb_spec i a), (Z.leb_spec a i); try lia; simpl.
    + rewrite zget_firstn. destruct (Z.ltb_spec i a); [reflexivity|lia].
    + destruct (Z.ltb_spec (i-a) (b-a)), (Z.ltb_spec i b); try lia.
      * rewrite zget_zrep. destruct (Z.leb_spec 0 (i-a)), (Z.ltb_spec (i-a) (b-a)); try lia; reflexivity.
      * rewrite zget_skipn by lia.
        destruct (Z.ltb_spec (i - a - (b-a)) 0); [lia|]. f_equal; lia.
Qed.

Lemma zlen_zset l i x : zlen (zset l i x) = zlen l.
Proof.
  unfold zset. destruct (Z.leb_spec 0 i), (Z.ltb_spec i (zlen l)); simpl; auto.
  rewrite zlen_app, zlen_cons, zlen_firstn, zlen_skipn; lia.
Qed.
Lemma zget_zset l i x j :
  zget (zset l i x) j = if (j =? i) && (0 <=? i) && (i <? zlen l) then Some x else zget l j.
Proof.
  unfold zset. destruct (Z.leb_spec 0 i), (Z.ltb_spec i (zlen l)); simpl;
    rewrite ?andb_false_r, ?andb_true_r; auto.
  rewrite zget_app, zlen_firstn. replace (Z.min (Z.max 0 i) (zlen l)) with i by lia.
  destruct (Z.ltb_spec j i), (Z.eqb_spec j i); try lia.
  - rewrite zget_firstn. destruct (Z.ltb_spec j i); [reflexivity|lia].
  - subst. rewrite zget_cons. replace (i - i) with 0 by lia; reflexivity.
  - rewrite zget_cons. destruct (Z.eqb_spec (j-i) 0); [lia|].
    rewrite zget_skipn by lia. destruct (Z.ltb_spec (j-i-1) 0); [lia|]. f_equal; lia.
Qed.
Lemma zget_In l i x : zget l i = Some x -> In x l.
Proof. unfold zget; destruct (i <? 0); [discriminate|apply nth_error_In]. Qed.
Lemma In_zget l x : In x l -> exists i, 0 <= i < zlen l /\ zget l i = Some x.
Proof.
  intros H; apply In_nth_error in H as [n H]. exists (Z.of_nat n).
  assert (E : zget l (Z.of_nat n) = Some x) by (rewrite zget_nth by lia; rewrite Nat2Z.id; auto).
  split; auto. apply zget_some_range in E; auto.
Qed.
End L.

Lemma zlen_map {A B} (f : A -> B) l : zlen (map f l) = zlen l.
Proof. unfold zlen; rewrite map_length; reflexivity. Qed.
Lemma zget_map {A B} (f : A -> B) l i : zget (map f l) i = option_map f (zget l i).
Proof. unfold zget; destruct (i <? 0); auto. apply nth_error_map. Qed.

Lemma zlen_zrange a b : zlen (zrange a b) = Z.max 0 (b - a).
Proof. unfold zrange; rewrite zlen_map; unfold zlen; rewrite seq_length; lia. Qed.
Lemma zget_zrange a b i : zget (zrange a b) i = if (0 <=? i) && (i <? b - a) then Some (a + i) else None.
Proof.
  unfold zrange; rewrite zget_map.
  destruct (Z.leb_spec 0 i); simpl.
  - destruct (Z.ltb_spec i (b-a)).
    + rewrite zget_nth by lia.
      assert (E : nth_error (seq 0 (Z.to_nat (b - a))) (Z.to_nat i) = Some (Z.to_nat i)).
      { rewrite (nth_error_nth' _ 0%nat) by (rewrite seq_length; lia).
        rewrite seq_nth by lia; f_equal; lia. }
      rewrite E; simpl; f_equal; lia.
    + rewrite zget_out; auto. unfold zlen; rewrite seq_length; lia.
  - rewrite zget_neg by lia; auto.
Qed.
Lemma In_zrange a b x : In x (zrange a b) <-> a <= x < b.
Proof.
  split; intros H.
  - apply In_zget in H as (i & Hi & E). rewrite zget_zrange in E. rewrite zlen_zrange in Hi.
    destruct (Z.leb_spec 0 i), (Z.ltb_spec i (b-a)); simpl in E; try discriminate. inversion E; lia.
  - apply zget_In with (x - a). rewrite zget_zrange.
    destruct (Z.leb_spec 0 (x-a)), (Z.ltb_spec (x-a) (b-a)); try lia; simpl; f_equal; lia.
Qed.
Lemma zrange_empty a b : b <= a -> zrange a b = [].
Proof. intros; unfold zrange; replace (Z.to_nat (b-a)) with 0%nat by lia; reflexivity. Qed.
Lemma zrange_cons a b : a < b -> zrange a b = a :: zrange (a+1) b.
Proof.
  intros; apply zget_ext; intros i. rewrite zget_cons, !zget_zrange.
  destruct (Z.eqb_spec i 0), (Z.leb_spec 0 i), (Z.ltb_spec i (b-a)), (Z.leb_spec 0 (i-1)), (Z.ltb_spec (i-1) (b-(a+1)));
    simpl; try lia; try reflexivity; f_equal; lia.
Qed.
Lemma zrange_app a b c : a <= b <= c -> zrange a c = zrange a b ++ zrange b c.
Proof.
  intros; apply zget_ext; intros i. rewrite zget_app, !zget_zrange, zlen_zrange.
  destruct (Z.ltb_spec i (Z.max 0 (b-a))), (Z.leb_spec 0 i), (Z.ltb_spec i (b-a)), (Z.ltb_spec i (c-a)),
   (Z.leb_spec 0 (i-Z.max 0 (b-a))), (Z.ltb_spec (i-Z.max 0 (b-a)) (c-b));
    simpl; try lia; try reflexivity; f_equal; lia.
Qed.
Lemma zrange_snoc a b : a <= b -> zrange a (b+1) = zrange a b ++ [b].
Proof. intros; rewrite (@zrange_app a b (b+1)) by lia. rewrite (@zrange_cons b) by lia.
  rewrite (@zrange_empty (b+1)) by lia; reflexivity. Qed.
Lemma NoDup_zrange a b : NoDup (zrange a b).
Proof.
  unfold zrange. apply FinFun.Injective_map_NoDup; [intros x y H; cbv beta in H; lia|apply seq_NoDup].
Qed.
Lemma map_zrange_shift {B} (f : Z -> B) a b c :
  map f (zrange (a + c) (b + c)) = map (fun x => f (x + c)) (zrange a b).
Proof.
  unfold zrange; rewrite !map_map. replace (b + c - (a + c)) with (b - a) by lia.
  apply map_ext; intros; f_equal; lia.
Qed.

(* dictionaries *)
Section D.
Context {A : Type}.
Implicit Types d : dict A.
Lemma dget_dset_same d k v : dget (dset d k v) k = Some v.
Proof.
  induction d as [|[k' v'] r IH]; simpl; [rewrite String.eqb_refl; auto|].
  destruct (String.eqb_spec k k'); simpl; [rewrite String.eqb_refl; auto|].
  destruct (String.eqb_spec k k'); [congruence|auto].
Qed.
Lemma dget_dset_other d k k' v : k' <> k -> dget (dset d k v) k' = dget d k'.
Proof.
  intros N; induction d as [|[k2 v2] r IH]; simpl.
  - destruct (String.eqb_spec k' k); [congruence|auto].
  - destruct (String.eqb_spec k k2); simpl.
    + subst. destruct (String.eqb_spec k' k2); [congruence|auto].
    + rewrite IH; auto.
Qed.
Lemma dget_dset d k k' v : dget (dset d k v) k' = if String.eqb k' k then Some v else dget d k'.
Proof.
  destruct (String.eqb_spec k' k); [subst; apply dget_dset_same|apply dget_dset_other; auto].
Qed.
Lemma dget_In d k v : dget d k = Some v -> In (k, v) d.
Proof.
  induction d as [|[k' v'] r IH]; simpl; [discriminate|].
  destruct (String.eqb_spec k k'); intros E; [inversion E; subst; auto|auto].
Qed.
Lemma dget_None d k : dget d k = None <-> ~ In k (dkeys d).
Proof.
  induction d as [|[k' v'] r IH]; simpl; [tauto|].
  destruct (String.eqb_spec k k'); [subst; split; [discriminate|tauto]|].
  rewrite IH; split; intros H; [intros [E|E]; [congruence|tauto]|tauto].
Qed.
Lemma In_dget d k v : NoDup (dkeys d) -> In (k, v) d -> dget d k = Some v.
Proof.
  induction d as [|[k' v'] r IH]; simpl; [tauto|]; intros ND [E|E].
  - inversion E; subst; rewrite String.eqb_refl; auto.
  - inversion ND; subst. destruct (String.eqb_spec k k'); [|auto].
    subst. exfalso; apply H1. change k' with (fst (k', v)). apply in_map; auto.
Qed.
Lemma dkeys_dset_mem d k v x : dget d k = Some x -> dkeys (dset d k v) = dkeys d.
Proof.
  induction d as [|[k' v'] r IH]; simpl; [discriminate|].
  destruct (String.eqb_spec k k'); simpl; intros; [subst; auto|f_equal; auto].
Qed.
Lemma dkeys_dset_new d k v : dget d k = None -> dkeys (dset d k v) = dkeys d ++ [k].
Proof.
  induction d as [|[k' v'] r IH]; simpl; auto.
  destruct (String.eqb_spec k k'); simpl; intros; [discriminate|f_equal; auto].
Qed.
Lemma dset_new d k v : dget d k = None -> dset d k v = d ++ [(k, v)].
Proof.
  induction d as [|[k' v'] r IH]; simpl; auto.
  destruct (String.eqb_spec k k'); simpl; intros; [discriminate|f_equal; auto].
Qed.
Lemma dmem_spec d k : dmem d k = true <-> In k (dkeys d).
Proof.
  unfold dmem. destruct (dget d k) eqn:E; split; intros; auto; try discriminate.
  - apply dget_In in E. change k with (fst (k, a)). apply in_map; auto.
  - exfalso. apply dget_None in E; auto.
Qed.
End D.

Lemma smem_spec x l : smem x l = true <-> In x l.
Proof.
  unfold smem; rewrite existsb_exists; split.
  - intros (y & H & E). apply String.eqb_eq in E; subst; auto.
  - intros; exists x; split; auto; apply String.eqb_refl.
Qed.
Lemma smem_false x l : smem x l = false <-> ~ In x l.
Proof.
  rewrite <- smem_spec. destruct (smem x l); split; congruence.
Qed.

Lemma bind_ok {A B} (m : res A) (k : A -> res B) b :
  bind m k = Ok b -> exists a, m = Ok a /\ k a = Ok b.
Proof. destruct m; simpl; intros; [eauto|discriminate]. Qed.
Lemma foldM_app {A B} (f : A -> B -> res A) acc l1 l2 :
  foldM f acc (l1 ++ l2) = bind (foldM f acc l1) (fun a => foldM f a l2).
Proof.
  revert acc; induction l1 as [|x r IH]; intros; simpl; auto.
  destruct (f acc x); simpl; auto.
Qed.
Lemma foldM_inv {A B} (f : A -> B -> res A) (P : A -> Prop) l acc r :
  P acc -> (forall a x a', In x l -> P a -> f a x = Ok a' -> P a') -> foldM f acc l = Ok r -> P r.
Proof.
  revert acc; induction l as [|x l IH]; simpl; intros acc H0 HS E.
  - inversion E; subst; auto.
  - apply bind_ok in E as (a & E1 & E2). eapply IH; [|intros; eapply HS; eauto|exact E2].
    eapply HS; eauto.
Qed.
