(** Proofs about the sources. *)
Require Import Verif.PyBase Verif.PyLemmas Verif.PyStr Verif.UtilModel Verif.UtilProps Verif.SourceModel Verif.SourceSpec.
Set Implicit Arguments.
Local Open Scope list_scope.
Local Open Scope Z_scope.
Ltac Zify.zify_post_hook ::= Z.div_mod_to_equations.

Section Generic.
Context {V S : Type} (get : S -> Z -> res (list (list V) * S)).
(** an invariant that says at which time a state is *)
Lemma plays_inv (I : S -> Z -> Prop) channels f :
  (forall s t n, I s t -> 0 <= n -> exists s', get s n = Ok (piece channels f t n, s') /\ I s' (t + n)) ->
  forall s, I s 0 -> plays get channels f s.
Proof.
  intros Hstep s Hs ns Hns. revert s Hs. generalize 0. induction Hns as [|n ns Hn Hns IH]; intros t s Hs; cbn [request_all cut]; [eauto|].
  destruct (Hstep s t n Hs Hn) as (s' & E & Hs'). rewrite E. cbn [bind fst snd]. destruct (IH _ _ Hs') as (s2 & E2). rewrite E2. cbn [bind fst snd]. eauto.
Qed.
Lemma piece_row channels (f : Z -> Z -> V) t n c : 0 <= c < channels -> zget (piece channels f t n) c = Some (map (fun k => f c (t + k)) (zrange 0 n)).
Proof. intros H. unfold piece. rewrite zget_map, zget_zrange. replace (_ && _)%bool with true by lia. cbn [option_map]. rewrite Z.add_0_l. auto. Qed.
Lemma channel_cut channels (f : Z -> Z -> V) c : 0 <= c < channels -> forall ns t, Forall (fun n => 0 <= n) ns -> channel (cut channels f t ns) c = map (fun k => f c (t + k)) (zrange 0 (total ns)).
Proof.
  intros Hc. induction ns as [|n ns IH]; intros t H; cbn [cut]; [auto|]. inversion H; subst. unfold channel. cbn [flat_map]. rewrite piece_row by auto. fold (channel (cut channels f (t + n) ns) c). rewrite IH by auto.
  change (total (n :: ns)) with (n + total ns). assert (0 <= total ns) by (clear - H3; induction H3; [simpl; lia|change (0 <= x + total l); lia]).
  rewrite (@zrange_app 0 n (n + total ns)) by lia. rewrite map_app. f_equal. replace (zrange n (n + total ns)) with (map (fun k => n + k) (zrange 0 (total ns))).
  - rewrite map_map. apply map_ext. intros k. f_equal. lia.
  - apply zget_ext. intros i. rewrite zget_map, !zget_zrange. replace (n + total ns - n) with (total ns - 0) by lia. destruct (_ && _)%bool; simpl; auto.
Qed.
End Generic.

Section Rows.
Context {V : Type}.
Lemma mapM_map {A B C} (h : A -> B) (f : B -> res C) (r : A -> C) l : (forall a, In a l -> f (h a) = Ok (r a)) -> mapM f (map h l) = Ok (map r l).
Proof. induction l as [|a l IH]; intros H; cbn [map mapM]; auto. rewrite H by (left; auto). cbn [bind]. rewrite IH by (intros; apply H; right; auto). auto. Qed.
Lemma combine_map {A B C} (f : A -> B) (g : A -> C) l : combine (map f l) (map g l) = map (fun a => (f a, g a)) l.
Proof. induction l; simpl; congruence. Qed.
Lemma zget_combine {A B} (x : list A) : forall (y : list B) c, zget (combine x y) c = match zget x c, zget y c with Some a, Some b => Some (a, b) | _, _ => None end.
Proof. induction x as [|a x IH]; intros y c; simpl; [rewrite !zget_nil; auto|]. destruct y as [|b y]; [rewrite !zget_nil; destruct (zget (a :: x) c); auto|]. rewrite !zget_cons. destruct (c =? 0); auto. Qed.
Lemma zget_zmap (g : Z -> V) n i : zget (map g (zrange 0 n)) i = if (0 <=? i) && (i <? n) then Some (g i) else None.
Proof. rewrite zget_map, zget_zrange, Z.sub_0_r. destruct (_ && _)%bool; auto. Qed.
Lemma zlen_zmap (g : Z -> V) n : 0 <= n -> zlen (map g (zrange 0 n)) = n.
Proof. intros H. rewrite zlen_map, zlen_zrange. lia. Qed.
Lemma map_zrange_ext (g h : Z -> V) n : (forall k, 0 <= k < n -> g k = h k) -> map g (zrange 0 n) = map h (zrange 0 n).
Proof. intros H. apply map_ext_in. intros k Hk. apply In_zrange in Hk. auto. Qed.
Lemma set_row (g a : Z -> V) N L i cur x : 0 <= i -> 0 <= x -> i + x <= N -> 0 <= cur -> cur + x <= L ->
  pyslice_set (map g (zrange 0 N)) i (i + x) (pyslice (map a (zrange 0 L)) cur (cur + x)) = Ok (map (fun k => if (i <=? k) && (k <? i + x) then a (cur + (k - i)) else g k) (zrange 0 N)).
Proof.
  intros. pose proof (zlen_zmap g (n := N) ltac:(lia)) as L1. pose proof (zlen_zmap a (n := L) ltac:(lia)) as L2.
  destruct (@pyslice_set_in V (map g (zrange 0 N)) i (i + x) (pyslice (map a (zrange 0 L)) cur (cur + x))) as (r & E & Hl & Hg); [lia|lia|rewrite zlen_pyslice_in by lia; lia|].
  rewrite E. f_equal. apply zget_ext_range; [rewrite Hl, L1, zlen_zmap; lia|]. intros k Hk. rewrite Hg, !zget_zmap. rewrite Hl, L1 in Hk. replace ((0 <=? k) && (k <? N))%bool with true by lia.
  destruct ((i <=? k) && (k <? i + x))%bool eqn:Q; auto.
  rewrite zget_pyslice_in by lia. replace ((0 <=? k - i) && (k - i <? cur + x - cur))%bool with true by lia. rewrite zget_zmap. replace ((0 <=? cur + (k - i)) && (cur + (k - i) <? L))%bool with true by lia. auto.
Qed.
Definition grid (C N : Z) (g : Z -> Z -> V) : signal := map (fun c => map (g c) (zrange 0 N)) (zrange 0 C).
Lemma grid_ext C N g h : (forall c k, 0 <= c < C -> 0 <= k < N -> g c k = h c k) -> grid C N g = grid C N h.
Proof. intros H. unfold grid. apply map_ext_in. intros c Hc. apply In_zrange in Hc. apply map_zrange_ext. auto. Qed.
Lemma piece_grid C f t n : piece C f t n = grid C n (fun c k => f c (t + k)).
Proof. reflexivity. Qed.
Lemma grid_of sig L d : rectangular sig L -> sig = grid (zlen sig) L (fun c k => sample d sig c k).
Proof.
  intros H. apply zget_ext. intros c. unfold grid. rewrite zget_map, zget_zrange, Z.sub_0_r. destruct ((0 <=? c) && (c <? zlen sig))%bool eqn:Q; cbn [option_map].
  - destruct (@zget_in_range _ sig c) as (row & E); [lia|]. rewrite E. f_equal. rewrite Z.add_0_l. assert (Hl : zlen row = L) by (apply H; eapply zget_In; eauto).
    apply zget_ext. intros k. rewrite zget_zmap. destruct ((0 <=? k) && (k <? L))%bool eqn:Q2; [|destruct (zget row k) eqn:Z; auto; apply zget_some_range in Z; lia].
    unfold sample. rewrite E. destruct (@zget_in_range _ row k) as (x & ->); [lia|auto].
  - destruct (zget sig c) eqn:Z; auto. apply zget_some_range in Z. lia.
Qed.
Lemma set_grid C N L (g a : Z -> Z -> V) i cur x : 0 <= C -> 0 <= i -> 0 <= x -> i + x <= N -> 0 <= cur -> cur + x <= L ->
  set_cols (grid C N g) i (i + x) (cols (grid C L a) cur (cur + x)) = Ok (grid C N (fun c k => if (i <=? k) && (k <? i + x) then a c (cur + (k - i)) else g c k)).
Proof.
  intros. unfold set_cols, cols, grid. rewrite !zlen_map, Z.eqb_refl, map_map, combine_map. apply mapM_map. intros c _. cbn [fst snd]. apply set_row; auto.
Qed.
Lemma splits_tail cur L n x bl : 1 <= L -> 0 <= cur < L -> splits cur L n (x :: bl) -> 0 < x <= L - cur /\ splits ((cur + x) mod L) L (n - x) bl.
Proof.
  intros HL Hc S. assert (Hx : 0 < x) by (pose proof (sp_pos S) as P; inversion P; auto). destruct (sp_in S [] x bl eq_refl) as (q & Q1 & Q2). change (total []) with 0 in *.
  assert (q = 0) by nia. subst q. split; [lia|]. assert (Hd : exists d, cur + x = (cur + x) mod L + d * L) by (exists ((cur + x) / L); lia). destruct Hd as (d & Hd).
  split.
  - pose proof (sp_pos S) as P. inversion P; auto.
  - pose proof (sp_sum S) as T. change (total (x :: bl)) with (x + total bl) in T. lia.
  - intros pre y post ->. destruct (sp_in S (x :: pre) y post eq_refl) as (q & A & B). change (total (x :: pre)) with (x + total pre) in *. exists (q - d). lia.
  - intros pre y post -> Hn. destruct (@sp_end _ _ _ _ S (x :: pre) y post eq_refl Hn) as (q & A). change (total (x :: pre)) with (x + total pre) in *. exists (q - d). lia.
Qed.
Lemma copy_fold C L (a : Z -> Z -> V) N : 0 <= C -> 1 <= L -> forall bl cur i n g, 0 <= cur < L -> 0 <= i -> i + n = N -> splits cur L n bl ->
  foldM (fun st block_len => let '(sig, current, i) := st in
         sig <- set_cols sig i (i + block_len) (cols (grid C L a) current (current + block_len)) ;;
         if L =? 0 then Err ZeroDivisionError else Ok (sig, (current + block_len) mod L, i + block_len)) (grid C N g, cur, i) bl
  = Ok (grid C N (fun c k => if i <=? k then a c ((cur + (k - i)) mod L) else g c k), (cur + n) mod L, i + n).
Proof.
  intros HC HL. replace (L =? 0) with false by lia. induction bl as [|x bl IH]; intros cur i n g Hc Hi HN S.
  - pose proof (sp_sum S) as T. change (total []) with 0 in T. subst n. cbn [foldM]. rewrite !Z.add_0_r, (Z.mod_small cur L) by lia. do 3 f_equal. apply grid_ext. intros c k _ Hk. destruct (Z.leb_spec i k); [lia|auto].
  - destruct (splits_tail HL Hc S) as [Hx S']. assert (Hn : 0 <= n - x). { pose proof (sp_sum S') as T. pose proof (sp_pos S') as P. clear - T P. rewrite <- T. clear T. induction P; [simpl; lia|change (0 <= x0 + total l); lia]. }
    cbn [foldM]. rewrite set_grid by lia. cbn [bind]. rewrite (IH ((cur + x) mod L) (i + x) (n - x)); [|lia|lia|lia|auto].
    assert (M : forall z, ((cur + x) mod L + z) mod L = (cur + x + z) mod L) by (intros z; rewrite Zplus_mod_idemp_l; auto).
    rewrite M. replace (cur + x + (n - x)) with (cur + n) by lia. replace (i + x + (n - x)) with (i + n) by lia. do 3 f_equal. apply grid_ext. intros c k _ Hk. rewrite M. destruct (Z.leb_spec (i + x) k), (Z.leb_spec i k); try lia; cbn [andb].
    + f_equal. f_equal. lia.
    + destruct (Z.ltb_spec k (i + x)); [|lia]. rewrite Z.mod_small by lia. auto.
    + auto.
Qed.
Lemma copy_cyclic C L (a : Z -> Z -> V) v0 cur n : 0 <= C -> 1 <= L -> 0 <= cur < L -> 0 <= n ->
  exists bl, calc_block_sizes n cur L = Ok bl /\ copy_blocks (grid C L a) L bl (blank v0 C n) cur = Ok (grid C n (fun c k => a c ((cur + k) mod L)), (cur + n) mod L).
Proof.
  intros HC HL Hc Hn. destruct (@C31_blocks n cur L) as (bl & E & S); [lia|lia|lia|]. exists bl. split; auto.
  unfold copy_blocks. replace (blank v0 C n) with (grid C n (fun _ _ => v0)).
  - rewrite (@copy_fold C L a n HC HL bl cur 0 n (fun _ _ => v0)); [|lia|lia|lia|auto]. cbn [bind]. do 2 f_equal. apply grid_ext. intros c k _ Hk. destruct (Z.leb_spec 0 k); [|lia]. repeat f_equal. lia.
  - apply zget_ext. intros c. unfold grid, blank. rewrite zget_map, zget_zrange, zget_zrep, Z.sub_0_r. destruct (_ && _)%bool; auto. cbn [option_map]. f_equal.
    apply zget_ext. intros k. rewrite zget_zmap, zget_zrep. auto.
Qed.
Lemma copy_cyclic' C L (a : Z -> Z -> V) v0 cur n audio : audio = grid C L a -> 0 <= C -> 1 <= L -> 0 <= cur < L -> 0 <= n ->
  exists bl, calc_block_sizes n cur L = Ok bl /\ copy_blocks audio L bl (blank v0 C n) cur = Ok (grid C n (fun c k => a c ((cur + k) mod L)), (cur + n) mod L).
Proof. intros ->. apply copy_cyclic. Qed.
End Rows.
