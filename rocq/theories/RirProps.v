(** Properties of the assembly of impulse responses: C53, C71, C72. *)
Require Import Verif.PyBase Verif.PyLemmas.
Require Import Lra.
Require Import Verif.SineModel Verif.TrajModel Verif.RegionModel Verif.RirModel.
Require Import Verif.TrajProps Verif.RegionProps.
Set Implicit Arguments.
Local Open Scope list_scope.
Local Open Scope Z_scope.

(* ------------------------------------------------------------------ specification *)
(** sample [t] of an impulse response, zero after its end *)
Definition sample (r : list R) (t : Z) : R := match zget r t with Some x => x | None => 0%R end.
(** an impulse response cut or zero padded to [n] samples *)
Definition fitted (n : Z) (r : list R) : list R := map (sample r) (zrange 0 n).
(** the first [d] samples of those dropped, and as many zeros put at the end *)
Definition fitted_from (d n : Z) (r : list R) : list R := map (fun t => if t + d <? n then sample r (t + d) else 0%R) (zrange 0 n).
(** the array [x] of impulse responses with one row per source, one column per microphone *)
Definition table (ns nm : Z) (f : Z -> Z -> list R) : list (list (list R)) := map (fun i => map (fun j => f i j) (zrange 0 nm)) (zrange 0 ns).
(** the impulse response from source [i] to microphone [j] of a list with one entry per microphone *)
Definition from_to (rirs : list (list (list R))) (i j : Z) : list R := nth (Z.to_nat i) (nth (Z.to_nat j) rirs []) [].
(** a position seen from the corner of the room *)
Definition from_corner (size center p : list R) : list R := vsub p (vsub center (map (fun x => x / 2)%R size)).
(** the microphones in groups of 500 *)
Fixpoint groups {A} (n : nat) (l : list A) : list (list A) := match n with O => [] | S n => firstn 500 l :: groups n (skipn 500 l) end.
Definition groups_of {A} (l : list A) : list (list A) := groups (Z.to_nat ((zlen l + 499) / 500)) l.
(** the simulator called on each group, the random state being passed on *)
Fixpoint simulate {G A B} (sim : A -> G -> res (B * G)) (gs : list A) (g : G) : res (list B * G) :=
  match gs with
  | [] => Ok ([], g)
  | mics :: r => x <- sim mics g ;; y <- simulate sim r (snd x) ;; Ok (fst x :: fst y, snd y)
  end.
(** the result of the simulator has one list per microphone with one impulse response per source, of at least [d] samples *)
Definition shaped (ns : Z) (d : Z) (nm : Z) (rirs : list (list (list R))) : Prop :=
  zlen rirs = nm /\ Forall (fun row => zlen row = ns /\ Forall (fun r => d <= zlen r) row) rirs.

(* ------------------------------------------------------------------ lemmas *)
Lemma zget_map' {A B} (f : A -> B) l i : zget (map f l) i = match zget l i with Some x => Some (f x) | None => None end.
Proof. unfold zget. destruct (i <? 0); auto. rewrite nth_error_map. destruct (nth_error l (Z.to_nat i)); auto. Qed.
Lemma zget_tab {B} (f : Z -> B) n i : 0 <= i < n -> zget (map f (zrange 0 n)) i = Some (f i).
Proof. intros H. rewrite zget_map', zget_zrange. destruct (Z.leb_spec 0 i), (Z.ltb_spec i (n - 0)); try lia. auto. Qed.
Lemma zlen_tab {B} (f : Z -> B) n : zlen (map f (zrange 0 n)) = Z.max 0 n.
Proof. rewrite zlen_map, zlen_zrange. lia. Qed.
Lemma tab_ext {B} (f g : Z -> B) n : (forall i, 0 <= i < n -> f i = g i) -> map f (zrange 0 n) = map g (zrange 0 n).
Proof. intros H. apply map_ext_in. intros i Hi. apply H. apply PyLemmas.In_zrange in Hi. lia. Qed.
Lemma table_ext ns nm f g : (forall i j, 0 <= i < ns -> 0 <= j < nm -> f i j = g i j) -> table ns nm f = table ns nm g.
Proof. intros H. unfold table. apply tab_ext. intros i Hi. apply tab_ext. intros j Hj. apply H; auto. Qed.
Lemma zset_tab {B} (f : Z -> B) n i x : zset (map f (zrange 0 n)) i x = map (fun k => if k =? i then x else f k) (zrange 0 n).
Proof.
  apply zget_ext. intros k. rewrite zget_zset, zlen_tab. rewrite !zget_map', zget_zrange.
  destruct (Z.eqb_spec k i), (Z.leb_spec 0 i), (Z.ltb_spec i (Z.max 0 n)), (Z.leb_spec 0 k), (Z.ltb_spec k (n - 0)); cbn [andb]; try lia; auto; replace (0 + k) with k by lia; destruct (Z.eqb_spec k i); try lia; auto.
Qed.
Lemma foldM_enumerate {A B} (f : A -> Z * B -> res A) (P : Z -> A -> Prop) (l : list B) acc :
  (forall i x acc, zget l i = Some x -> P i acc -> exists acc', f acc (i, x) = Ok acc' /\ P (i + 1) acc') ->
  P 0 acc -> exists acc', foldM f acc (enumerate l) = Ok acc' /\ P (zlen l) acc'.
Proof.
  intros H H0. unfold enumerate. assert (G : forall l' k acc, 0 <= k -> (forall i, 0 <= i -> zget l (k + i) = zget l' i) -> P k acc -> exists acc', foldM f acc (combine (zrange k (k + zlen l')) l') = Ok acc' /\ P (k + zlen l') acc').
  { induction l' as [|x l' IH]; intros k a Hk Hl Hp. - exists a. rewrite zrange_empty by (unfold zlen; cbn [length]; lia). cbn. split; auto. unfold zlen. cbn [length]. rewrite Z.add_0_r. auto.
    - rewrite zrange_cons by (rewrite zlen_cons; pose proof (zlen_nonneg l'); lia). cbn [combine foldM]. destruct (H k x a) as (a' & E & Hp'); auto. { specialize (Hl 0). rewrite Z.add_0_r in Hl. rewrite Hl by lia. auto. }
      rewrite E. cbn [bind]. rewrite zlen_cons. replace (k + (1 + zlen l')) with ((k + 1) + zlen l') by lia. apply IH; auto; [lia|]. intros i Hi. specialize (Hl (i + 1)). replace (k + 1 + i) with (k + (i + 1)) by lia. rewrite Hl by lia. rewrite zget_cons. destruct (Z.eqb_spec (i + 1) 0); [lia|]. destruct (Z.ltb_spec (i + 1) 0); [lia|]. f_equal. lia. }
  specialize (G l 0 acc). cbn [Z.add] in G. apply G; auto. lia.
Qed.
Lemma set_ir_table ns nm f i j n new : 0 <= i < ns -> 0 <= j < nm -> 0 <= n <= zlen (f i j) -> zlen new = n ->
  exists l, set_ir (table ns nm f) i j n new = Ok (table ns nm (fun i' j' => if (i' =? i) && (j' =? j) then l else f i' j')) /\ zlen l = zlen (f i j) /\ (forall t, zget l t = if (0 <=? t) && (t <? n) then zget new t else zget (f i j) t).
Proof.
  intros Hi Hj Hn Hl. unfold set_ir, table. rewrite zget_tab by auto. rewrite zget_tab by auto. destruct (@pyslice_set_in R (f i j) 0 n new) as (l & E & L & Q); [lia|lia|lia|]. rewrite E. cbn [bind]. exists l. split; [|split; auto].
  - f_equal. rewrite zset_tab. apply tab_ext. intros k Hk. destruct (Z.eqb_spec k i); cbn [andb]; auto. subst. rewrite zset_tab. auto.
  - intros t. rewrite Q. replace (t - 0) with t by lia. auto.
Qed.
Lemma zget_nth {A} (l : list A) i d x : zget l i = Some x -> nth (Z.to_nat i) l d = x.
Proof. unfold zget. destruct (i <? 0); [discriminate|]. intros H. apply nth_error_nth with (d := d) in H. auto. Qed.
Lemma zget_range {A} (l : list A) i x : zget l i = Some x -> 0 <= i < zlen l.
Proof. intros H. destruct (Z.ltb_spec i 0). { rewrite zget_neg in H by auto. discriminate. } destruct (Z.ltb_spec i (zlen l)); [lia|]. rewrite zget_out in H by auto. discriminate. Qed.
(** one impulse response is put into an array of zeros *)
Lemma store_one_ok ns nm f ir_len d to i r : 0 <= ir_len -> 0 <= d <= ir_len -> d <= zlen r -> 0 <= i < ns -> 0 <= to < nm -> f i to = zrep ir_len 0%R ->
  store_one ir_len d to (table ns nm f) (i, r) = Ok (table ns nm (fun i' j' => if (i' =? i) && (j' =? to) then fitted_from d ir_len r else f i' j')).
Proof.
  intros H0 Hd Hr Hi Ht Hf. unfold store_one.
  assert (S1 : zlen (pyslice r d (Z.min (zlen r) ir_len - d + d)) = Z.min (zlen r) ir_len - d). { rewrite zlen_pyslice_in by lia. lia. }
  destruct (@set_ir_table ns nm f i to (Z.min (zlen r) ir_len - d) (pyslice r d (Z.min (zlen r) ir_len - d + d))) as (l & E & L & Q); auto.
  { rewrite Hf, zlen_zrep. lia. }
  rewrite E. f_equal. apply table_ext. intros i' j' _ _. destruct ((i' =? i) && (j' =? to)); auto. apply zget_ext. intros t. rewrite Q, Hf, zget_zrep.
  unfold fitted_from. rewrite zget_map', zget_zrange. rewrite zget_pyslice_in by lia.
  destruct (Z.leb_spec 0 t); cbn [andb]; auto. destruct (Z.ltb_spec t (ir_len - 0)), (Z.ltb_spec t ir_len); try lia.
  - replace (0 + t) with t by lia. destruct (Z.ltb_spec t (Z.min (zlen r) ir_len - d)), (Z.ltb_spec t (Z.min (zlen r) ir_len - d + d - d)), (Z.ltb_spec (t + d) ir_len); try lia; auto.
    + unfold sample. replace (d + t) with (t + d) by lia. destruct (zget r (t + d)) eqn:Z1; auto. exfalso. destruct (@zget_in_range R r (t + d)) as [x Hx]; [lia|]. congruence.
    + unfold sample. rewrite zget_out by lia. auto.
  - destruct (Z.ltb_spec t (Z.min (zlen r) ir_len - d)); auto. lia.
Qed.
Lemma store_receiver_ok ns nm f ir_len d k j row : 0 <= ns -> 0 <= ir_len -> 0 <= d <= ir_len -> zlen row = ns -> Forall (fun r => d <= zlen r) row -> 0 <= k + j < nm ->
  (forall i, 0 <= i < ns -> f i (k + j) = zrep ir_len 0%R) ->
  store_receiver ir_len d k (table ns nm f) (j, row) = Ok (table ns nm (fun i' j' => if j' =? k + j then fitted_from d ir_len (nth (Z.to_nat i') row []) else f i' j')).
Proof.
  intros Hns H0 Hd Hrow Hr Hj Hf. unfold store_receiver.
  destruct (@foldM_enumerate _ _ (store_one ir_len d (k + j)) (fun n acc => acc = table ns nm (fun i' j' => if (j' =? k + j) && (i' <? n) then fitted_from d ir_len (nth (Z.to_nat i') row []) else f i' j')) row (table ns nm f)) as (acc & E & P).
  - intros i x acc Hx ->. pose proof (zget_range _ _ Hx) as Hi. rewrite store_one_ok; auto.
    + eexists. split; [reflexivity|]. apply table_ext. intros i' j' Hi' Hj'. destruct (Z.eqb_spec i' i), (Z.eqb_spec j' (k + j)), (Z.ltb_spec i' i), (Z.ltb_spec i' (i + 1)); cbn [andb]; try lia; auto. subst. rewrite (zget_nth _ _ [] Hx). auto.
    + rewrite Forall_forall in Hr. apply Hr. apply zget_In in Hx. auto.
    + lia.
    + rewrite Z.ltb_irrefl, andb_false_r. apply Hf. lia.
  - apply table_ext. intros i' j' Hi' _. destruct (Z.ltb_spec i' 0); [lia|]. rewrite andb_false_r. auto.
  - rewrite E, P. f_equal. apply table_ext. intros i' j' Hi' _. rewrite Hrow. destruct (Z.ltb_spec i' ns); [|lia]. rewrite andb_true_r. auto.
Qed.
Lemma store_all_ok ns nm f ir_len d k n rirs : 0 <= ns -> 0 <= ir_len -> 0 <= d <= ir_len -> shaped ns d n rirs -> 0 <= k -> k + n <= nm ->
  (forall i j, 0 <= i < ns -> k <= j < nm -> f i j = zrep ir_len 0%R) ->
  store_all ir_len d k (table ns nm f) rirs = Ok (table ns nm (fun i' j' => if (k <=? j') && (j' <? k + n) then fitted_from d ir_len (from_to rirs i' (j' - k)) else f i' j')).
Proof.
  intros Hns H0 Hd [Hn Hr] Hk Hkn Hf. unfold store_all.
  destruct (@foldM_enumerate _ _ (store_receiver ir_len d k) (fun n acc => acc = table ns nm (fun i' j' => if (k <=? j') && (j' <? k + n) then fitted_from d ir_len (from_to rirs i' (j' - k)) else f i' j')) rirs (table ns nm f)) as (acc & E & P).
  - intros j row acc Hx ->. pose proof (zget_range _ _ Hx) as Hj. rewrite Forall_forall in Hr. destruct (Hr row) as [R1 R2]; [apply zget_In in Hx; auto|]. rewrite store_receiver_ok; auto.
    + eexists. split; [reflexivity|]. apply table_ext. intros i' j' Hi' Hj'. destruct (Z.eqb_spec j' (k + j)), (Z.leb_spec k j'), (Z.ltb_spec j' (k + j)), (Z.ltb_spec j' (k + (j + 1))); cbn [andb]; try lia; auto. subst j'. unfold from_to. replace (k + j - k) with j by lia. rewrite (zget_nth _ _ [] Hx). auto.
    + lia.
    + intros i Hi. destruct (Z.ltb_spec (k + j) (k + j)); [lia|]. rewrite andb_false_r. apply Hf; lia.
  - apply table_ext. intros i' j' _ _. destruct (Z.leb_spec k j'), (Z.ltb_spec j' (k + 0)); cbn [andb]; auto; lia.
  - rewrite E, P, Hn. auto.
Qed.
Lemma groups_step {A} (l : list A) : 0 < zlen l -> groups_of l = firstn 500 l :: groups_of (skipn 500 l).
Proof.
  intros H. unfold groups_of. assert (E : zlen (skipn 500 l) = Z.max 0 (zlen l - 500)). { unfold zlen. rewrite skipn_length. lia. }
  rewrite E. assert (Q : (zlen l + 499) / 500 = 1 + (Z.max 0 (zlen l - 500) + 499) / 500). { pose proof (Z.div_mod (zlen l + 499) 500). pose proof (Z.mod_pos_bound (zlen l + 499) 500). pose proof (Z.div_mod (Z.max 0 (zlen l - 500) + 499) 500). pose proof (Z.mod_pos_bound (Z.max 0 (zlen l - 500) + 499) 500). lia. }
  rewrite Q. rewrite Z2Nat.inj_add; [|lia|apply Z.div_pos; lia]. change (Z.to_nat 1) with 1%nat. reflexivity.
Qed.
Lemma block_slice {A} (l : list A) k : 0 <= k < zlen l -> pyslice l k (k + Z.min 500 (zlen l - k)) = firstn 500 (skipn (Z.to_nat k) l).
Proof.
  intros H. unfold pyslice. rewrite !norm_idx_id by lia. replace (k + Z.min 500 (zlen l - k) - k) with (Z.min 500 (zlen l - k)) by lia.
  destruct (Z.leb_spec 500 (zlen l - k)). - rewrite Z.min_l by lia. auto.
  - rewrite Z.min_r by lia. rewrite !firstn_all2; auto; rewrite skipn_length; unfold zlen in *; lia.
Qed.
Lemma skipn_twice {A} a : forall b (l : list A), skipn a (skipn b l) = skipn (b + a) l.
Proof. induction b as [|b IH]; intros l; auto. destruct l as [|x l]; [destruct a; auto|]. apply IH. Qed.
Lemma nth_concat_l {A} (a b : list A) d i : 0 <= i < zlen a -> nth (Z.to_nat i) (a ++ b) d = nth (Z.to_nat i) a d.
Proof. intros H. apply app_nth1. unfold zlen in H. lia. Qed.
Lemma nth_concat_r {A} (a b : list A) d i : zlen a <= i -> nth (Z.to_nat i) (a ++ b) d = nth (Z.to_nat (i - zlen a)) b d.
Proof. intros H. unfold zlen in *. rewrite app_nth2 by lia. f_equal. lia. Qed.
Lemma num_max_assoc a b c : num_max a (num_max b c) = num_max (num_max a b) c.
Proof. destruct a, b, c; cbn; auto. rewrite Rmax_assoc. auto. Qed.
Lemma num_max_neg a : num_max NegInf a = a.
Proof. destruct a; auto. Qed.
Definition worst (f : list R -> num) (acc : num) (l : list (list R)) : num := fold_left (fun a r => num_max a (f r)) l acc.
Lemma worst_acc f l acc : worst f acc l = num_max acc (worst f NegInf l).
Proof.
  revert acc. unfold worst. induction l as [|r l IH]; intros acc; cbn [fold_left]; [destruct acc; auto|]. rewrite IH, (IH (num_max NegInf (f r))), num_max_neg, num_max_assoc. auto.
Qed.
Lemma worst_app f a b acc : worst f acc (a ++ b) = worst f (worst f acc a) b.
Proof. apply fold_left_app. Qed.
Definition error_of (n : Z) (r : list R) : num := calc_truncation_error r (Z.min (zlen r) n).
Definition value_of (n : Z) (r : list R) : num := calc_truncation_value r (Z.min (zlen r) n).
Lemma info_eq n rirs : calc_truncation_info rirs n = (worst (error_of n) NegInf (concat rirs), worst (value_of n) NegInf (concat rirs)).
Proof.
  unfold calc_truncation_info. assert (S1 : forall row acc, fold_left (trunc_step n) row acc = (worst (error_of n) (fst acc) row, worst (value_of n) (snd acc) row)).
  { induction row as [|r row IH]; intros [a b]; auto. cbn [fold_left]. rewrite IH. auto. }
  assert (S2 : forall rirs acc, fold_left (fun acc row => fold_left (trunc_step n) row acc) rirs acc = (worst (error_of n) (fst acc) (concat rirs), worst (value_of n) (snd acc) (concat rirs))).
  { clear rirs. induction rirs as [|row rirs IH]; intros [a b]; auto. cbn [fold_left concat]. rewrite IH, S1, !worst_app. auto. }
  apply S2.
Qed.
Definition last_of {A} (l : list A) (d : option A) : option A := match rev l with [] => d | x :: _ => Some x end.
Lemma last_of_cons {A} (x : A) l d : last_of (x :: l) d = last_of l (Some x).
Proof. unfold last_of. cbn [rev]. destruct (rev l); auto. Qed.

Section Run.
Context {G : Type} (compute_rir : list R -> R -> Z -> list (list R) -> list (list R) -> G -> res (list (list (list R)) * G)).
Context (measure_rt60 : list (list (list R)) -> res (list R)).
Context (pos_src pos_mic : list (list R)) (room_size offset : list R) (ir_len : Z) (e_absorbtion : R) (max_order d : Z) (dirs : list string).
Notation ns := (zlen pos_src).
Notation nm := (zlen pos_mic).
Definition sim_block (mics : list (list R)) (g : G) := compute_rir room_size e_absorbtion max_order (map (fun p => vadd p offset) pos_src) (map (fun p => vadd p offset) mics) g.
Hypothesis sim_shaped : forall mics g rirs g', sim_block mics g = Ok (rirs, g') -> shaped ns d (zlen mics) rirs.
Hypothesis len_ok : 0 <= ir_len.
Hypothesis d_ok : 0 <= d <= ir_len.
Hypothesis omni : existsb (fun x => negb (String.eqb x "omni")) dirs = false.
Lemma blocks_eq fuel : forall k f e v room g, 0 <= k <= nm -> nm - k <= Z.of_nat fuel -> (forall i j, 0 <= i < ns -> k <= j < nm -> f i j = zrep ir_len 0%R) ->
  blocks compute_rir fuel room_size offset e_absorbtion max_order ir_len d pos_src pos_mic dirs k (mkLoop (table ns nm f) e v room g) =
  (x <- simulate sim_block (groups_of (skipn (Z.to_nat k) pos_mic)) g ;;
   let all := concat (fst x) in
   Ok (mkLoop (table ns nm (fun i j => if k <=? j then fitted_from d ir_len (from_to all i (j - k)) else f i j))
              (worst (error_of ir_len) e (concat all)) (worst (value_of ir_len) v (concat all)) (last_of (fst x) room) (snd x))).
Proof.
  pose proof (zlen_nonneg pos_src) as Hns.
  induction fuel as [|fuel IH]; intros k f e v room g Hk Hfu Hf.
  - cbn [blocks]. destruct (Z.ltb_spec k nm); [lia|]. rewrite skipn_all2 by (unfold zlen in *; lia). change (@groups_of (list R) []) with (@nil (list (list R))). cbn [simulate bind fst snd concat]. f_equal. change (worst (error_of ir_len) e (concat [])) with e. change (worst (value_of ir_len) v (concat [])) with v. change (last_of [] room) with room. f_equal. apply table_ext. intros i j _ Hj. destruct (Z.leb_spec k j); auto. lia.
  - cbn [blocks]. destruct (Z.ltb_spec k nm) as [L|L].
    2:{ rewrite skipn_all2 by (unfold zlen in *; lia). change (@groups_of (list R) []) with (@nil (list (list R))). cbn [simulate bind fst snd concat]. f_equal. change (worst (error_of ir_len) e (concat [])) with e. change (worst (value_of ir_len) v (concat [])) with v. change (last_of [] room) with room. f_equal. apply table_ext. intros i j _ Hj. destruct (Z.leb_spec k j); auto. lia. }
    rewrite omni. rewrite block_slice by lia. rewrite groups_step. 2:{ unfold zlen in *. rewrite skipn_length. lia. }
    cbn [simulate lp_rng]. unfold sim_block at 1. set (block := firstn 500 (skipn (Z.to_nat k) pos_mic)).
    assert (LB : zlen block = Z.min 500 (nm - k)). { unfold block, zlen in *. rewrite firstn_length, skipn_length. lia. }
    destruct (compute_rir room_size e_absorbtion max_order (map (fun p => vadd p offset) pos_src) (map (fun p => vadd p offset) block) g) as [[rirs g']|er] eqn:Q; cbn [bind]; auto.
    pose proof (@sim_shaped _ _ _ _ Q) as SH. rewrite LB in SH. cbn [lp_ir lp_error lp_value]. rewrite (@store_all_ok ns nm f ir_len d k _ rirs Hns len_ok d_ok SH) by (auto; lia). cbn [bind fst snd]. rewrite info_eq. cbn [fst snd]. rewrite IH.
    2: lia. 2: lia.
    2:{ intros i j Hi Hj. destruct (Z.leb_spec k j), (Z.ltb_spec j (k + Z.min 500 (nm - k))); cbn [andb]; try lia. apply Hf; lia. }
    assert (SK : skipn (Z.to_nat (k + Z.min 500 (nm - k))) pos_mic = skipn 500 (skipn (Z.to_nat k) pos_mic)).
    { rewrite skipn_twice. destruct (Z.leb_spec 500 (nm - k)). - f_equal. lia. - rewrite !skipn_all2; auto; unfold zlen in *; lia. }
    rewrite SK. destruct (simulate sim_block (groups_of (skipn 500 (skipn (Z.to_nat k) pos_mic))) g') as [[rooms g2]|er] eqn:Q2; cbn [bind]; auto. cbn [fst snd concat]. f_equal. rewrite last_of_cons. rewrite concat_app, !worst_app, <- !worst_acc. f_equal.
    apply table_ext. intros i j Hi Hj. destruct SH as [SL SR]. destruct (Z.leb_spec (k + Z.min 500 (nm - k)) j), (Z.leb_spec k j), (Z.ltb_spec j (k + Z.min 500 (nm - k))); cbn [andb]; try lia; auto.
    + unfold from_to. rewrite nth_concat_r by lia. rewrite SL. replace (j - (k + Z.min 500 (nm - k))) with (j - k - Z.min 500 (nm - k)) by lia. auto.
    + unfold from_to. rewrite nth_concat_l by lia. auto.
Qed.
End Run.
Lemma offset_corner size center p : vadd p (vsub (map (fun x => x / 2)%R size) center) = from_corner size center p.
Proof.
  unfold from_corner, vadd, vsub, vzip. revert size center. induction p as [|x p IH]; intros size center; auto. destruct size as [|s size], center as [|c center]; auto. cbn [map combine fst snd]. apply cons_eq; [lra|]. apply IH.
Qed.
Lemma existsb_omni dirs : Forall (fun x => x = "omni"%string) dirs -> existsb (fun x => negb (String.eqb x "omni")) dirs = false.
Proof. induction 1 as [|x l H Hl IH]; auto. cbn. subst. auto. Qed.
Lemma fitted_0 n r : fitted_from 0 n r = fitted n r.
Proof. unfold fitted_from, fitted. apply tab_ext. intros t Ht. rewrite Z.add_0_r. destruct (Z.ltb_spec t n); [auto|lia]. Qed.
Lemma zeros_table (pos_src pos_mic : list (list R)) n : map (fun _ => map (fun _ => zrep n 0%R) pos_mic) pos_src = table (zlen pos_src) (zlen pos_mic) (fun _ _ => zrep n 0%R).
Proof.
  unfold table. apply zget_ext. intros i. rewrite zget_map', zget_map', zget_zrange. destruct (Z.leb_spec 0 i), (Z.ltb_spec i (zlen pos_src - 0)); cbn [andb].
  - destruct (@zget_in_range _ pos_src i) as [x ->]; [lia|]. f_equal. apply zget_ext. intros j. rewrite zget_map', zget_map', zget_zrange. destruct (Z.leb_spec 0 j), (Z.ltb_spec j (zlen pos_mic - 0)); cbn [andb].
    + destruct (@zget_in_range _ pos_mic j) as [y ->]; [lia|]. auto.
    + rewrite zget_out by lia. auto.
    + rewrite zget_neg by lia. auto.
    + rewrite zget_neg by lia. auto.
  - rewrite zget_out by lia. auto.
  - rewrite zget_neg by lia. auto.
  - rewrite zget_neg by lia. auto.
Qed.

Lemma groups_concat {A} n : forall l : list A, zlen l <= 500 * Z.of_nat n -> concat (groups n l) = l.
Proof.
  induction n as [|n IH]; intros l H; [destruct l; [auto|rewrite zlen_cons in H; pose proof (zlen_nonneg l); lia]|]. cbn [groups concat]. rewrite IH. - apply firstn_skipn. - unfold zlen in *. rewrite skipn_length. lia.
Qed.
Lemma groups_of_concat {A} (l : list A) : concat (groups_of l) = l.
Proof. apply groups_concat. pose proof (zlen_nonneg l). pose proof (Z.div_mod (zlen l + 499) 500). pose proof (Z.mod_pos_bound (zlen l + 499) 500). lia. Qed.
Lemma Forall2_concat {A B} (P : A -> B -> Prop) l : forall m, Forall2 (Forall2 P) l m -> Forall2 P (concat l) (concat m).
Proof. intros m H. induction H; [constructor|]. cbn. apply Forall2_app; auto. Qed.
Lemma Forall2_zlen {A B} (P : A -> B -> Prop) l m : Forall2 P l m -> zlen l = zlen m.
Proof. unfold zlen. induction 1; cbn [length]; lia. Qed.
Lemma Forall2_at {A B} (P : A -> B -> Prop) l m da db : Forall2 P l m -> forall i, 0 <= i < zlen l -> P (nth (Z.to_nat i) l da) (nth (Z.to_nat i) m db).
Proof.
  intros H. unfold zlen. assert (K : forall i, (i < length l)%nat -> P (nth i l da) (nth i m db)). { induction H; intros [|i]; cbn [length nth]; intros; try lia; auto. apply IHForall2. lia. } intros i Hi. apply K. lia.
Qed.
Lemma Forall2_tab {A B} (P : A -> B -> Prop) (l : list A) (f : Z -> B) d0 : (forall i, 0 <= i < zlen l -> P (nth (Z.to_nat i) l d0) (f i)) -> Forall2 P l (map f (zrange 0 (zlen l))).
Proof.
  assert (K : forall l a, 0 <= a -> (forall i, 0 <= i < zlen l -> P (nth (Z.to_nat i) l d0) (f (a + i))) -> Forall2 P l (map f (zrange a (a + zlen l)))).
  { clear l. induction l as [|x l IH]; intros a Ha H. - rewrite zrange_empty by (unfold zlen; cbn; lia). constructor. - rewrite zlen_cons in *. rewrite zrange_cons by (pose proof (zlen_nonneg l); lia). cbn [map]. constructor. + specialize (H 0). rewrite Z.add_0_r in H. apply H. pose proof (zlen_nonneg l). lia.
    + replace (a + (1 + zlen l)) with ((a + 1) + zlen l) by lia. apply IH; [lia|]. intros i Hi. specialize (H (1 + i)). replace (a + 1 + i) with (a + (1 + i)) by lia. replace (Z.to_nat (1 + i)) with (S (Z.to_nat i)) in H by lia. apply H. lia. }
  intros H. apply (K l 0); [lia|]. intros i Hi. cbn [Z.add]. auto.
Qed.
Lemma Forall2_impl' {A B} (P Q : A -> B -> Prop) l m : (forall a b, P a b -> Q a b) -> Forall2 P l m -> Forall2 Q l m.
Proof. intros H. induction 1; constructor; auto. Qed.
Lemma Forall2_map_left {A B C} (f : A -> B) (P : B -> C -> Prop) l m : Forall2 P (map f l) m -> Forall2 (fun a c => P (f a) c) l m.
Proof. revert m. induction l as [|x l IH]; intros m H; inversion H; subst; constructor; auto. Qed.

Section Theorems.
Context {G : Type} (compute_rir : list R -> R -> Z -> list (list R) -> list (list R) -> G -> res (list (list (list R)) * G)).
Context (measure_rt60 : list (list (list R)) -> res (list R)).
Context (pos_src pos_mic : list (list R)) (room_size room_center : list R) (ir_len : Z) (e_absorbtion : R) (max_order : Z) (dirs : list string).
(** the simulator called with positions relative to the corner of the room *)
Definition call (mics : list (list R)) (g : G) :=
  compute_rir room_size e_absorbtion max_order (map (from_corner room_size room_center) pos_src) (map (from_corner room_size room_center) mics) g.
Notation ism := (ir_room_image_source_3d compute_rir measure_rt60 pos_src pos_mic room_size room_center ir_len e_absorbtion max_order).
Lemma call_eq mics g : sim_block compute_rir pos_src room_size (vsub (map (fun x => x / 2)%R room_size) room_center) e_absorbtion max_order mics g = call mics g.
Proof. unfold sim_block, call. f_equal; apply map_ext; intros; apply offset_corner. Qed.
Lemma simulate_ext {A B} (f g : A -> G -> res (B * G)) l : (forall a x, f a x = g a x) -> forall x, simulate f l x = simulate g l x.
Proof. intros H. induction l as [|a l IH]; intros x; cbn [simulate]; auto. rewrite H. destruct (g a x) as [[y z]|]; cbn [bind]; auto. rewrite IH. auto. Qed.
Lemma ism_eq d md g :
  (forall mics g rirs g', call mics g = Ok (rirs, g') -> shaped (zlen pos_src) d (zlen mics) rirs) -> 0 <= d <= ir_len -> Forall (fun x => x = "omni"%string) dirs ->
  ism d dirs md g =
  (x <- simulate call (groups_of pos_mic) g ;;
   let all := concat (fst x) in
   let ir := table (zlen pos_src) (zlen pos_mic) (fun i j => fitted_from d ir_len (from_to all i j)) in
   if md : bool then
     rt <- measured measure_rt60 max_order (last_of (fst x) None) ;;
     Ok (ir, Some (mkMetadata (worst (error_of ir_len) NegInf (concat all)) (worst (value_of ir_len) NegInf (concat all)) rt max_order e_absorbtion), snd x)
   else Ok (ir, None, snd x)).
Proof.
  intros Hs Hd Ho. unfold ir_room_image_source_3d. rewrite zeros_table. rewrite blocks_eq; try lia; auto.
  - change (Z.to_nat 0) with 0%nat. cbn [skipn]. rewrite (simulate_ext _ call) by apply call_eq. destruct (simulate call (groups_of pos_mic) g) as [[rooms g']|e]; cbn [bind]; auto. cbn [fst snd lp_room lp_ir lp_error lp_value lp_rng].
    assert (E : table (zlen pos_src) (zlen pos_mic) (fun i j => if 0 <=? j then fitted_from d ir_len (from_to (concat rooms) i (j - 0)) else zrep ir_len 0%R) = table (zlen pos_src) (zlen pos_mic) (fun i j => fitted_from d ir_len (from_to (concat rooms) i j))).
    { apply table_ext. intros i j _ Hj. destruct (Z.leb_spec 0 j); [|lia]. rewrite Z.sub_0_r. auto. }
    rewrite E. auto.
  - intros mics g0 rirs g'. rewrite call_eq. apply Hs.
  - apply existsb_omni. auto.
  - pose proof (zlen_nonneg pos_mic). lia.
  - unfold zlen. lia.
Qed.
(** C53: the simulator is called on the microphones in groups of 500, with positions relative to the corner of the room; then entry (i, j) of the result is the
    simulated impulse response from source i to microphone j, without its first [d] samples, cut or zero padded to the configured length; it fails only if a call of the simulator fails *)
Theorem C53_assembly d g :
  (forall mics g rirs g', call mics g = Ok (rirs, g') -> shaped (zlen pos_src) d (zlen mics) rirs) -> 0 <= d <= ir_len -> Forall (fun x => x = "omni"%string) dirs ->
  ism d dirs false g =
  (x <- simulate call (groups_of pos_mic) g ;;
   Ok (table (zlen pos_src) (zlen pos_mic) (fun i j => fitted_from d ir_len (from_to (concat (fst x)) i j)), None, snd x)).
Proof. intros. rewrite ism_eq; auto. Qed.
Lemma simulate_rows (P : list (list R) -> list (list (list R)) -> Prop) l : (forall mics g rirs g', call mics g = Ok (rirs, g') -> P mics rirs) ->
  forall g x, simulate call l g = Ok x -> Forall2 P l (fst x).
Proof.
  intros H. induction l as [|mics l IH]; intros g x E; cbn [simulate] in E; [injection E as <-; constructor|]. destruct (call mics g) as [[rirs g']|] eqn:Q; [|discriminate]. cbn [bind snd fst] in E. destruct (simulate call l g') as [[rooms g2]|] eqn:Q2; [|discriminate]. injection E as <-. cbn [fst]. constructor; [eapply H; eauto|]. apply (IH _ _ Q2).
Qed.
(** C53: whatever relates an impulse response to its positions in each call of the simulator ([P source microphone response], for instance being one of the possible outcomes of the
    randomized image source method) relates every impulse response of the result, up to its length, to its source and microphone *)
Theorem C53_pairs (P : list R -> list R -> list R -> Prop) g md ir meta g' : 0 <= ir_len ->
  (forall sources mics g rirs g', compute_rir room_size e_absorbtion max_order sources mics g = Ok (rirs, g') -> Forall2 (fun m row => Forall2 (fun s r => P s m r) sources row) mics rirs) ->
  Forall (fun x => x = "omni"%string) dirs ->
  ism 0 dirs md g = Ok (ir, meta, g') ->
  Forall2 (fun s row => Forall2 (fun m h => exists r, P (from_corner room_size room_center s) (from_corner room_size room_center m) r /\ h = fitted ir_len r) pos_mic row) pos_src ir.
Proof.
  intros Hl HP Ho E.
  assert (HC : forall mics g rirs g', call mics g = Ok (rirs, g') -> Forall2 (fun m row => Forall2 (fun s r => P (from_corner room_size room_center s) (from_corner room_size room_center m) r) pos_src row) mics rirs).
  { intros mics g0 rirs g1 Q. apply HP in Q. apply Forall2_map_left in Q. eapply Forall2_impl'; [|exact Q]. intros m row H. apply Forall2_map_left in H. auto. }
  assert (I : exists x, simulate call (groups_of pos_mic) g = Ok x /\ ir = table (zlen pos_src) (zlen pos_mic) (fun i j => fitted_from 0 ir_len (from_to (concat (fst x)) i j))).
  { rewrite ism_eq in E; auto; [|intros|lia].
    - destruct (simulate call (groups_of pos_mic) g) as [x|] eqn:Q; [|discriminate]. exists x. split; auto. cbn [bind] in E. destruct md; [destruct (measured measure_rt60 max_order (last_of (fst x) None)); [|discriminate]; cbn [bind] in E|]; congruence.
    - apply HC in H. split; [symmetry; apply (Forall2_zlen H)|]. clear - H. induction H; constructor; auto. split; [symmetry; apply (Forall2_zlen H)|]. clear. induction y; constructor; auto. apply zlen_nonneg. }
  destruct I as (x & Q & ->). pose proof (@simulate_rows _ _ HC _ _ Q) as F. apply Forall2_concat in F. rewrite groups_of_concat in F.
  unfold table. apply Forall2_tab with (d0 := []). intros i Hi. apply Forall2_tab with (d0 := []). intros j Hj. exists (from_to (concat (fst x)) i j). split; [|apply fitted_0].
  pose proof (@Forall2_at _ _ _ _ _ [] [] F j Hj) as F1. cbn beta in F1. apply (@Forall2_at _ _ _ _ _ [] [] F1 i Hi).
Qed.
(** C53: if the simulated impulse response of a pair only depends on the two positions, then it is the one returned for the pair up to its length, for any number of microphones *)
Theorem C53_exact (h : list R -> list R -> list R) g : 0 <= ir_len ->
  (forall sources mics g, compute_rir room_size e_absorbtion max_order sources mics g = Ok (map (fun m => map (fun s => h s m) sources) mics, g)) ->
  Forall (fun x => x = "omni"%string) dirs ->
  ism 0 dirs false g =
  Ok (map (fun s => map (fun m => fitted ir_len (h (from_corner room_size room_center s) (from_corner room_size room_center m))) pos_mic) pos_src, None, g).
Proof.
  intros Hl HC Ho. assert (S1 : forall l, exists rooms, simulate call l g = Ok (rooms, g)). { induction l as [|b l [rooms IH]]; [eexists; reflexivity|]. cbn [simulate]. unfold call at 1. rewrite HC. cbn [bind snd]. rewrite IH. eexists. reflexivity. }
  destruct (S1 (groups_of pos_mic)) as [rooms Q].
  assert (E : exists ir, ism 0 dirs false g = Ok (ir, None, g)).
  { rewrite C53_assembly; auto; [rewrite Q; eexists; reflexivity| |lia]. intros mics g0 rirs g1 E. unfold call in E. rewrite HC in E. injection E as <- <-. split; [rewrite !zlen_map; auto|]. apply Forall_map, Forall_map, Forall_forall. intros m _. split; [rewrite !zlen_map; auto|]. apply Forall_map, Forall_map, Forall_forall. intros; apply zlen_nonneg. }
  destruct E as [ir E]. rewrite E. f_equal. f_equal. f_equal.
  apply (@C53_pairs (fun s m r => r = h s m)) in E; auto.
  - revert E. generalize ir. induction pos_src as [|s l IH]; intros ir0 E; inversion E as [|? row ? rows H1 H2]; subst; auto. cbn [map]. f_equal; [|apply IH; auto]. revert H1. clear. revert row. induction pos_mic as [|m mics IH]; intros row H; inversion H as [|? y ? ys H1 H2]; subst; auto. cbn [map]. destruct H1 as (r & -> & ->). f_equal. apply IH; auto.
  - intros sources mics g0 rirs g1 Q1. rewrite HC in Q1. injection Q1 as <- <-. clear. induction mics; constructor; auto. clear. induction sources; constructor; auto.
Qed.
(** C53: microphones with a directivity are refused before anything is simulated, if there are any microphones *)
Theorem C53_directional d md g : pos_mic <> [] -> Exists (fun x => x <> "omni"%string) dirs -> ism d dirs md g = Err NotImplementedError.
Proof.
  intros Hm He. assert (X : existsb (fun x => negb (String.eqb x "omni")) dirs = true). { apply existsb_exists. apply Exists_exists in He as (x & I & N). exists x. split; auto. destruct (String.eqb_spec x "omni"); [congruence|auto]. }
  unfold ir_room_image_source_3d. destruct pos_mic as [|m l]; [congruence|]. cbn [length blocks]. rewrite X. destruct (Z.ltb_spec 0 (zlen (m :: l))) as [|K]; auto. rewrite zlen_cons in K. pose proof (zlen_nonneg l). lia.
Qed.
End Theorems.

(* ------------------------------------------------------------------ C71: metadata *)
(** the order of numbers with -inf, nan being above all *)
Definition num_le (a b : num) : Prop := match a, b with NegInf, _ => True | _, NaN => True | Fin x, Fin y => (x <= y)%R | _, _ => False end.
(** the largest of a list, -inf if it is empty *)
Definition largest (x : num) (l : list num) : Prop := In x (NegInf :: l) /\ Forall (fun y => num_le y x) l.
(** [x] is the level of [a] relative to [b] in decibel *)
Definition level (factor a b : R) (x : num) : Prop :=
  match x with
  | Fin y => (0 < a)%R /\ (0 < b)%R /\ a = (b * Rpower 10 (y / factor))%R
  | NegInf => a = 0%R /\ (0 < b)%R
  | NaN => a = 0%R /\ b = 0%R
  end.
Definition power_sum (l : list R) : R := fold_right (fun x s => (x * x + s)%R) 0%R l.
Definition is_peak (l : list R) (p : R) : Prop := (forall x, In x l -> (Rabs x <= p)%R) /\ exists x, In x l /\ p = Rabs x.
(** what is cut off from an impulse response *)
Definition lost (n : Z) (r : list R) : list R := skipn (Z.to_nat n) r.
Definition energy_lost (n : Z) (r : list R) (x : num) : Prop := level 10 (power_sum (lost n r)) (power_sum r) x.
Definition peak_lost (n : Z) (r : list R) (x : num) : Prop :=
  if zlen r <=? n then x = NegInf else exists a b, is_peak (lost n r) a /\ is_peak r b /\ level 20 a b x.

Lemma energy_sum l : energy l = power_sum l.
Proof. induction l as [|x l IH]; auto. change (energy (x :: l)) with (x ^ 2 + energy l)%R. change (power_sum (x :: l)) with (x * x + power_sum l)%R. rewrite IH. ring. Qed.
Lemma power_sum_nonneg l : (0 <= power_sum l)%R.
Proof. induction l as [|x l IH]; cbn [power_sum fold_right]; [lra|]. change (fold_right (fun x s => (x * x + s)%R) 0%R l) with (power_sum l). pose proof (Rle_0_sqr x) as H. unfold Rsqr in H. lra. Qed.
Lemma power_sum_skip n : forall l, (power_sum (skipn n l) <= power_sum l)%R.
Proof. induction n as [|n IH]; intros l; [apply Rle_refl|]. destruct l as [|x l]; [apply Rle_refl|]. cbn [skipn]. change (power_sum (x :: l)) with (x * x + power_sum l)%R. specialize (IH l). pose proof (Rle_0_sqr x) as H. unfold Rsqr in H. lra. Qed.
Lemma decibel_level factor a b : (factor > 0)%R -> (0 <= a <= b)%R -> level factor a b (decibel factor a b).
Proof.
  intros Hf Hab. unfold decibel. destruct (Req_EM_T b 0) as [->|B]; [cbn; split; lra|]. destruct (Req_EM_T a 0) as [->|A]; [cbn; split; lra|]. cbn. do 2 (split; [lra|]).
  assert (L : (0 < ln 10)%R). { rewrite <- ln_1. apply ln_increasing; lra. }
  replace (factor * log10 (a / b) / factor)%R with (log10 (a / b)) by (field; lra). unfold Rpower, log10. replace (ln (a / b) / ln 10 * ln 10)%R with (ln (a / b)) by (field; lra). rewrite exp_ln; [field; lra|]. apply Rdiv_lt_0_compat; lra.
Qed.
Lemma slice_lost n r : 0 <= n -> pyslice r (Z.min (zlen r) n) (zlen r) = lost n r.
Proof.
  intros H. pose proof (zlen_nonneg r). unfold pyslice, lost. rewrite !norm_idx_id by lia. rewrite firstn_all2.
  - destruct (Z.leb_spec n (zlen r)); [rewrite Z.min_r by lia; auto|]. rewrite Z.min_l by lia. rewrite !skipn_all2; auto; unfold zlen in *; lia.
  - rewrite skipn_length. unfold zlen in *. lia.
Qed.
Lemma energy_lost_ok n r : 0 <= n -> energy_lost n r (error_of n r).
Proof. intros H. unfold energy_lost, error_of, calc_truncation_error. rewrite slice_lost by auto. rewrite !energy_sum. apply decibel_level; [lra|]. split; [apply power_sum_nonneg|apply power_sum_skip]. Qed.
Lemma peak_ok l : l <> [] -> is_peak l (peak l).
Proof.
  unfold peak. induction l as [|x l IH]; [congruence|]. intros _. cbn [map fold_right]. destruct l as [|y l].
  - cbn. split; [intros z [->|[]]; apply Rmax_l|]. exists x. split; [left; auto|]. apply Rmax_left, Rabs_pos.
  - destruct IH as [H1 (z & Hz & E)]; [discriminate|]. split.
    + intros w [->|Hw]; [apply Rmax_l|]. eapply Rle_trans; [apply H1; auto|apply Rmax_r].
    + destruct (Rle_dec (Rabs x) (fold_right Rmax 0%R (map Rabs (y :: l)))) as [L|L]; [rewrite Rmax_right by auto; exists z; split; [right; auto|auto]|]. rewrite Rmax_left by lra. exists x. split; [left; auto|auto].
Qed.
Lemma peak_skip n : forall l, (peak (skipn n l) <= peak l)%R.
Proof. induction n as [|n IH]; intros l; [apply Rle_refl|]. destruct l as [|x l]; [apply Rle_refl|]. cbn [skipn]. eapply Rle_trans; [apply IH|]. unfold peak. cbn [map fold_right]. apply Rmax_r. Qed.
Lemma peak_nonneg l : (0 <= peak l)%R.
Proof. unfold peak. induction l; cbn [map fold_right]; [lra|]. eapply Rle_trans; [|apply Rmax_l]. apply Rabs_pos. Qed.
Lemma peak_lost_ok n r : 0 <= n -> peak_lost n r (value_of n r).
Proof.
  intros H. unfold peak_lost, value_of, calc_truncation_value. destruct (Z.leb_spec (zlen r) n) as [L|L].
  - rewrite Z.min_l by lia. rewrite Z.leb_refl. auto.
  - destruct (Z.leb_spec (zlen r) (Z.min (zlen r) n)); [lia|]. rewrite slice_lost by auto. exists (peak (lost n r)), (peak r). split; [|split].
    + apply peak_ok. unfold lost. intros K. apply (f_equal (@length R)) in K. rewrite skipn_length in K. cbn in K. unfold zlen in L. lia.
    + apply peak_ok. intros ->. cbn in L. lia.
    + apply decibel_level; [lra|]. split; [apply peak_nonneg|apply peak_skip].
Qed.
Lemma num_le_refl a : num_le a a.
Proof. destruct a; cbn; auto. apply Rle_refl. Qed.
Lemma num_le_trans a b c : num_le a b -> num_le b c -> num_le a c.
Proof. destruct a, b, c; cbn; try tauto. apply Rle_trans. Qed.
Lemma num_max_cases a b : (num_max a b = a \/ num_max a b = b) /\ num_le a (num_max a b) /\ num_le b (num_max a b).
Proof.
  destruct a as [|x|], b as [|y|]; cbn; auto using Rle_refl. split; [|split; [apply Rmax_l|apply Rmax_r]]. destruct (Rle_dec x y); [rewrite Rmax_right by auto|rewrite Rmax_left by lra]; auto.
Qed.
Lemma worst_largest f l : largest (worst f NegInf l) (map f l).
Proof.
  assert (K : forall l acc, In (worst f acc l) (acc :: map f l) /\ num_le acc (worst f acc l) /\ Forall (fun y => num_le y (worst f acc l)) (map f l)).
  { clear l. induction l as [|r l IH]; intros acc. - cbn. split; [auto|]. split; [apply num_le_refl|constructor].
    - change (worst f acc (r :: l)) with (worst f (num_max acc (f r)) l). destruct (IH (num_max acc (f r))) as (I & L & F). destruct (num_max_cases acc (f r)) as (C & L1 & L2). split; [|split].
      + cbn [map In]. destruct I as [I|I]; [|auto]. rewrite <- I. destruct C as [->| ->]; auto.
      + eapply num_le_trans; eauto.
      + cbn [map]. constructor; auto. eapply num_le_trans; eauto. }
  destruct (K l NegInf) as (I & _ & F). split; auto.
Qed.
Section Metadata.
Context {G : Type} (compute_rir : list R -> R -> Z -> list (list R) -> list (list R) -> G -> res (list (list (list R)) * G)).
Context (measure_rt60 : list (list (list R)) -> res (list R)).
Context (pos_src pos_mic : list (list R)) (room_size room_center : list R) (ir_len : Z) (e_absorbtion : R) (max_order : Z) (dirs : list string).
Notation ism := (ir_room_image_source_3d compute_rir measure_rt60 pos_src pos_mic room_size room_center ir_len e_absorbtion max_order).
Notation call := (call compute_rir pos_src room_size room_center e_absorbtion max_order).
(** C71: the reported truncation error and value are the largest ones over all pairs of all groups of microphones; asking for them does not change the impulse responses;
    the reverberation times are those of the last group of microphones *)
Theorem C71_truncation d g ir meta g' :
  (forall mics g rirs g', call mics g = Ok (rirs, g') -> shaped (zlen pos_src) d (zlen mics) rirs) -> 0 <= d <= ir_len -> Forall (fun x => x = "omni"%string) dirs ->
  ism d dirs true g = Ok (ir, Some meta, g') ->
  ism d dirs false g = Ok (ir, None, g') /\
  exists rooms errors values, simulate call (groups_of pos_mic) g = Ok (rooms, g') /\
    Forall2 (energy_lost ir_len) (concat (concat rooms)) errors /\ largest (md_error meta) errors /\
    Forall2 (peak_lost ir_len) (concat (concat rooms)) values /\ largest (md_value meta) values /\
    md_order meta = max_order /\ md_absorption meta = e_absorbtion.
Proof.
  intros Hs Hd Ho E. rewrite ism_eq in E by auto. rewrite ism_eq by auto. destruct (simulate call (groups_of pos_mic) g) as [[rooms g2]|] eqn:Q; [|discriminate]. cbn [bind fst snd] in *.
  destruct (measured measure_rt60 max_order (last_of rooms None)) as [rt|]; [|discriminate]. cbn [bind] in E. injection E as <- <- <-. split; auto.
  exists rooms, (map (error_of ir_len) (concat (concat rooms))), (map (value_of ir_len) (concat (concat rooms))). split; auto. cbn [md_error md_value md_order md_absorption].
  assert (F : forall (f : list R -> num) (P : list R -> num -> Prop) l, (forall r, P r (f r)) -> Forall2 P l (map f l)). { intros f P l H. induction l; constructor; auto. }
  split; [apply F; intros; apply energy_lost_ok; lia|]. split; [apply worst_largest|]. split; [apply F; intros; apply peak_lost_ok; lia|]. split; [apply worst_largest|]. auto.
Qed.
(** C71: which reverberation times are reported *)
Theorem C71_rt60 d g ir meta g' :
  (forall mics g rirs g', call mics g = Ok (rirs, g') -> shaped (zlen pos_src) d (zlen mics) rirs) -> 0 <= d <= ir_len -> Forall (fun x => x = "omni"%string) dirs ->
  ism d dirs true g = Ok (ir, Some meta, g') ->
  (max_order <= 0 -> md_rt60 meta = NoReflections) /\
  (0 < max_order -> exists rooms room, simulate call (groups_of pos_mic) g = Ok (rooms ++ [room], g') /\
     (md_rt60 meta = Failed /\ (measure_rt60 room = Ok [] \/ measure_rt60 room = Err ValueError) \/ exists l, md_rt60 meta = Measured l /\ measure_rt60 room = Ok l)).
Proof.
  intros Hs Hd Ho E. rewrite ism_eq in E by auto. destruct (simulate call (groups_of pos_mic) g) as [[rooms g2]|] eqn:Q; [|discriminate]. cbn [bind fst snd] in *.
  destruct (measured measure_rt60 max_order (last_of rooms None)) as [rt|] eqn:M; [|discriminate]. cbn [bind] in E. injection E as <- <- <-. cbn [md_rt60]. unfold measured in M. split.
  - intros L. destruct (Z.ltb_spec 0 max_order); [lia|]. congruence.
  - intros L. destruct (Z.ltb_spec 0 max_order); [|lia]. unfold last_of in M. destruct (rev rooms) as [|room l] eqn:RV; [discriminate|]. apply (f_equal (@rev _)) in RV. rewrite rev_involutive in RV. cbn [rev] in RV. exists (rev l), room. subst. split; auto.
    destruct (measure_rt60 room) as [[|x m]|[]]; try discriminate; injection M as <-; eauto. 
Qed.
(** C71: a failed measurement of the reverberation times does not lose the impulse responses *)
Theorem C71_failed d g ir g' rooms room :
  (forall mics g rirs g', call mics g = Ok (rirs, g') -> shaped (zlen pos_src) d (zlen mics) rirs) -> 0 <= d <= ir_len -> Forall (fun x => x = "omni"%string) dirs ->
  ism d dirs false g = Ok (ir, None, g') -> simulate call (groups_of pos_mic) g = Ok (rooms ++ [room], g') -> measure_rt60 room = Err ValueError ->
  exists meta, ism d dirs true g = Ok (ir, Some meta, g') /\ (0 < max_order -> md_rt60 meta = Failed).
Proof.
  intros Hs Hd Ho E Q M. rewrite ism_eq in E by auto. rewrite ism_eq by auto. rewrite Q in *. cbn [bind fst snd] in *. injection E as <-.
  unfold measured, last_of. rewrite rev_app_distr. cbn [rev app]. rewrite M. destruct (Z.ltb_spec 0 max_order); cbn [bind]; eexists; (split; [reflexivity|]); cbn [md_rt60]; auto; lia.
Qed.
(** C71: without microphones and with reflections the metadata cannot be had *)
Theorem C71_no_microphones d g : pos_mic = [] -> 0 < max_order -> ism d dirs true g = Err UnboundLocalError.
Proof. intros -> H. unfold ir_room_image_source_3d, measured. cbn. destruct (Z.ltb_spec 0 max_order); [auto|lia]. Qed.
End Metadata.

(* ------------------------------------------------------------------ C72: the high-pass filter *)
(** C72: every impulse response is filtered on its own, with a second of zeros before and after it, and the part at its place is kept; if the filter keeps the length, then the number of
    samples does not change *)
Theorem C72_filter highpass (rir : list (list (list R))) sr cutoff : 1 <= sr -> (forall x, zlen (highpass cutoff sr x) = zlen x) ->
  Forall2 (Forall2 (fun r r' => zlen r' = zlen r /\ forall t, 0 <= t < zlen r -> zget r' t = zget (highpass cutoff sr (zrep sr 0%R ++ r ++ zrep sr 0%R)) (sr + t))) rir (filter_rirs highpass rir sr cutoff).
Proof.
  intros Hs Hh. unfold filter_rirs. rewrite !map_map. induction rir as [|row rir IH]; constructor; auto. rewrite !map_map. clear IH. induction row as [|r row IH]; constructor; auto. clear IH.
  set (y := highpass cutoff sr (zrep sr 0%R ++ r ++ zrep sr 0%R)). assert (L : zlen y = zlen r + 2 * sr). { unfold y. rewrite Hh, !zlen_app, !zlen_zrep. lia. }
  pose proof (zlen_nonneg r). assert (N : norm_idx (zlen y) (- sr) = zlen r + sr). { unfold norm_idx. destruct (Z.ltb_spec (- sr) 0); lia. }
  split. - rewrite zlen_pyslice, N, norm_idx_id by lia. lia.
  - intros t Ht. rewrite zget_pyslice. cbv zeta. rewrite N, norm_idx_id by lia. destruct (Z.leb_spec 0 t), (Z.ltb_spec t (zlen r + sr - sr)); try lia. auto.
Qed.

(* ------------------------------------------------------------------ C73: parameters of the room model *)
(** C73: the parameters; no samples are dropped from the start of the impulse responses and the fractional delay filters have the odd length 2 * extra_delay + 1 *)
Theorem C73_parameters inverse_sabine c size rt60 extra pairs q : calc_rir_parameters inverse_sabine c size rt60 extra pairs = Ok q ->
  rq_c q = c /\ rq_min_dly q = 0 /\ rq_frac_delay q = 2 * extra + 1 /\
  ((0 < rt60)%R -> exists m, inverse_sabine rt60 size = Ok (rq_absorption q, m) /\ rq_order q = m + 8) /\
  ((rt60 <= 0)%R -> rq_absorption q = (9 / 10)%R /\ rq_order q = 0) /\
  Forall (fun sm => fst sm <> [] /\ snd sm <> []) pairs.
Proof.
  unfold calc_rir_parameters. intros H.
  destruct (if rlt 0 rt60 then _ else _) as [[a m]|] eqn:Q; [|discriminate]. cbn [bind fst snd] in H. destruct (foldM _ tt pairs) as [[]|] eqn:F; [|discriminate]. cbn [bind] in H. injection H as <-. cbn [rq_c rq_min_dly rq_frac_delay rq_absorption rq_order].
  split; auto. split; auto. split; [lia|]. split; [|split].
  - intros P. rewrite (proj2 (rlt_spec _ _)) in Q by auto. destruct (inverse_sabine rt60 size) as [[a' m']|]; [|discriminate]. injection Q as <- <-. eauto.
  - intros P. destruct (rlt 0 rt60) eqn:L; [apply rlt_spec in L; lra|]. injection Q as <- <-. auto.
  - clear Q. induction pairs as [|[s m'] l IH]; constructor; cbn [foldM fst snd] in F.
    + destruct (zlen s =? 0) eqn:S0; [discriminate|]. destruct (zlen m' =? 0) eqn:M0; [discriminate|]. cbn [fst snd]. split; intros ->; discriminate.
    + apply IH. destruct ((zlen s =? 0) || (zlen m' =? 0)); [discriminate|]. auto.
Qed.
(** C73: an array without elements makes it fail *)
Theorem C73_empty inverse_sabine c size rt60 extra pairs : Exists (fun sm => fst sm = [] \/ snd sm = []) pairs ->
  (rt60 <= 0)%R \/ (exists x, inverse_sabine rt60 size = Ok x) -> calc_rir_parameters inverse_sabine c size rt60 extra pairs = Err ValueError.
Proof.
  intros H Hs. unfold calc_rir_parameters.
  assert (F : foldM (fun (_ : unit) pq => if (zlen (fst pq) =? 0) || (zlen (snd pq) =? 0) then Err ValueError else Ok tt) tt pairs = Err ValueError).
  { induction H as [[s m] l H|[s m] l H IH]; cbn [foldM fst snd]; [cbn [fst snd] in H; destruct H as [->| ->]; [auto|]; rewrite orb_true_r; auto|]. destruct ((zlen s =? 0) || (zlen m =? 0)); cbn [bind]; auto. }
  destruct (rlt 0 rt60) eqn:L.
  - apply rlt_spec in L. destruct Hs as [Hs|[[a m] ->]]; [lra|]. cbn [bind fst snd]. rewrite F. auto.
  - cbn [bind fst snd]. rewrite F. auto.
Qed.

(* ------------------------------------------------------------------ examples *)
Local Open Scope R_scope.
(** a simulator whose impulse responses consist of the first coordinates of source and microphone, and one zero *)
Definition demo_response (s m : list R) : list R := [at_ s 0; at_ m 0; 0].
Definition demo_sim (size : list R) (absorption : R) (order : Z) (sources mics : list (list R)) (g : unit) : res (list (list (list R)) * unit) :=
  Ok (map (fun m => map (fun s => demo_response s m) sources) mics, g).
(** reverberation times, one for each pair *)
Definition demo_rt60 (room : list (list (list R))) : res (list R) := Ok (map (fun r => at_ r 1) (concat room)).
Definition demo_src : list (list R) := [[1; 0; 0]; [2; 0; 0]].
Definition demo_mic : list (list R) := repeat [1; 1; 1] 500 ++ [[-1; 0; 0]].
Lemma demo_exact size a o sources mics g : demo_sim size a o sources mics g = Ok (map (fun m => map (fun s => demo_response s m) sources) mics, g).
Proof. reflexivity. Qed.
(** the hypotheses of [C53_assembly], [C71_truncation] and [C71_rt60] hold of it, with more microphones than are simulated at once *)
Example demo_shaped : (forall mics g rirs g', call demo_sim demo_src [4; 4; 4] [0; 0; 0] (1 / 2) 3 mics g = Ok (rirs, g') -> shaped (zlen demo_src) 1 (zlen mics) rirs) /\
  (0 <= 1 <= 2)%Z /\ Forall (fun x => x = "omni"%string) ["omni"; "omni"]%string /\ zlen demo_mic = 501%Z.
Proof.
  split; [|split; [lia|split; [repeat constructor|reflexivity]]]. intros mics g rirs g' E. injection E as <- <-. split; [rewrite !zlen_map; auto|]. apply Forall_map, Forall_map, Forall_forall. intros m _. split; [reflexivity|]. apply Forall_forall. intros r Hr. destruct Hr as [<-|[<-|[]]]; unfold zlen, demo_response; cbn [length]; lia.
Qed.
Example demo_ir : ir_room_image_source_3d demo_sim demo_rt60 demo_src demo_mic [4; 4; 4] [0; 0; 0] 2 (1 / 2) 3 0 ["omni"; "omni"]%string false tt =
  Ok ([repeat [3; 3] 500 ++ [[3; 1]]; repeat [4; 3] 500 ++ [[4; 1]]], None, tt).
Proof.
  rewrite (@C53_exact _ demo_sim demo_rt60 demo_src demo_mic [4; 4; 4] [0; 0; 0] 2 (1 / 2) 3 ["omni"; "omni"]%string demo_response tt); [|lia|reflexivity|repeat constructor]. f_equal. f_equal. f_equal.
  unfold demo_src, demo_mic. cbn [map]. rewrite !map_app. cbn [map].
  assert (RP : forall (f : list R -> list R) x n, map f (repeat x n) = repeat (f x) n) by (intros f x n; induction n; cbn; congruence). rewrite !RP.
  assert (Q : forall s m, fitted 2 (demo_response (from_corner [4; 4; 4] [0; 0; 0] [s; 0; 0]) (from_corner [4; 4; 4] [0; 0; 0] [m; 1; 1])) = [s + 2; m + 2]) by (intros s m; change (fitted 2 (demo_response ?a ?b)) with [at_ a 0; at_ b 0]; unfold from_corner, vsub, vzip, at_; cbn [map combine fst snd nth]; repeat (apply cons_eq; [lra|]); reflexivity).
  assert (Q0 : forall s m, fitted 2 (demo_response (from_corner [4; 4; 4] [0; 0; 0] [s; 0; 0]) (from_corner [4; 4; 4] [0; 0; 0] [m; 0; 0])) = [s + 2; m + 2]) by (intros s m; change (fitted 2 (demo_response ?a ?b)) with [at_ a 0; at_ b 0]; unfold from_corner, vsub, vzip, at_; cbn [map combine fst snd nth]; repeat (apply cons_eq; [lra|]); reflexivity).
  rewrite !Q, !Q0. replace (1 + 2) with 3 by lra. replace (2 + 2) with 4 by lra. replace (-1 + 2) with 1 by lra. reflexivity.
Qed.
Example C53_directional_meets : demo_mic <> [] /\ Exists (fun x => x <> "omni"%string) ["omni"; "cardioid"]%string.
Proof. split; [discriminate|]. apply Exists_cons_tl, Exists_cons_hd. discriminate. Qed.
(** C71: the reverberation times of earlier groups are left out: of 1002 pairs, two are reported *)
Theorem C71_rt60_refuted : exists ir meta l, ir_room_image_source_3d demo_sim demo_rt60 demo_src demo_mic [4; 4; 4] [0; 0; 0] 2 (1 / 2) 3 1 ["omni"; "omni"]%string true tt = Ok (ir, Some meta, tt) /\
  md_rt60 meta = Measured l /\ zlen l = 2%Z /\ (zlen demo_src * zlen demo_mic = 1002)%Z.
Proof.
  destruct demo_shaped as (S1 & S2 & S3 & _). rewrite ism_eq by auto.
  assert (K : forall l, simulate (call demo_sim demo_src [4; 4; 4] [0; 0; 0] (1 / 2) 3) l tt = Ok (map (fun b => map (fun m => map (fun s => demo_response s m) (map (from_corner [4; 4; 4] [0; 0; 0]) demo_src)) (map (from_corner [4; 4; 4] [0; 0; 0]) b)) l, tt)).
  { induction l as [|b l IH]; auto. cbn [simulate map]. unfold call at 1. rewrite demo_exact. cbn [bind snd]. rewrite IH. reflexivity. }
  rewrite K. cbn [bind fst snd]. rewrite groups_step by (unfold demo_mic; rewrite zlen_app; unfold zlen; rewrite repeat_length; cbn [length]; lia).
  assert (E : skipn 500 demo_mic = [[-1; 0; 0]]) by reflexivity. rewrite E. change (groups_of [[-1; 0; 0]]) with [[[-1; 0; 0]]]. cbn [map last_of rev app measured demo_rt60 concat bind].
  eexists _, _, _. split; [reflexivity|]. split; [reflexivity|]. split; reflexivity.
Qed.
Example C71_failed_meets : exists ir, ir_room_image_source_3d demo_sim (fun _ => Err ValueError) demo_src demo_mic [4; 4; 4] [0; 0; 0] 2 (1 / 2) 3 1 ["omni"; "omni"]%string false tt = Ok (ir, None, tt) /\
  exists rooms room, simulate (call demo_sim demo_src [4; 4; 4] [0; 0; 0] (1 / 2) 3) (groups_of demo_mic) tt = Ok (rooms ++ [room], tt).
Proof.
  destruct demo_shaped as (S1 & S2 & S3 & _). rewrite ism_eq by auto.
  assert (K : forall l, simulate (call demo_sim demo_src [4; 4; 4] [0; 0; 0] (1 / 2) 3) l tt = Ok (map (fun b => map (fun m => map (fun s => demo_response s m) (map (from_corner [4; 4; 4] [0; 0; 0]) demo_src)) (map (from_corner [4; 4; 4] [0; 0; 0]) b)) l, tt)).
  { induction l as [|b l IH]; auto. cbn [simulate map]. unfold call at 1. rewrite demo_exact. cbn [bind snd]. rewrite IH. reflexivity. }
  rewrite K. cbn [bind fst snd]. eexists. split; [reflexivity|]. rewrite groups_step by (unfold demo_mic; rewrite zlen_app; unfold zlen; rewrite repeat_length; cbn [length]; lia).
  assert (E : skipn 500 demo_mic = [[-1; 0; 0]]) by reflexivity. rewrite E. change (groups_of [[-1; 0; 0]]) with [[[-1; 0; 0]]]. cbn [map]. eexists [_], _. reflexivity.
Qed.
(** in the other theorems of C71 to C73 *)
Example C71_no_microphones_meets : (@nil (list R)) = [] /\ (0 < 3)%Z.
Proof. split; [auto|lia]. Qed.
Example C72_meets : (1 <= 48000)%Z /\ forall x : list R, zlen ((fun (c : R) (sr : Z) (l : list R) => map (fun y => y / 2) l) 20 48000%Z x) = zlen x.
Proof. split; [lia|]. intros x. apply zlen_map. Qed.
Example C73_runs : calc_rir_parameters (fun rt size => Ok (rt / 2, 11%Z)) 343 [4; 4; 4] 1 40 [(demo_src, demo_mic)] = Ok (mkRirParameters 343 (1 / 2) 19 0 81).
Proof. unfold calc_rir_parameters. rewrite (proj2 (rlt_spec 0 1)) by lra. reflexivity. Qed.
Example C73_empty_meets : Exists (fun sm : list (list R) * list (list R) => fst sm = [] \/ snd sm = []) [(demo_src, demo_mic); (demo_src, [])] /\ (0 <= 0 \/ exists x, (fun (rt : R) (size : list R) => Ok (rt / 2, 11%Z)) 0 [4; 4; 4] = Ok x).
Proof. split; [apply Exists_cons_tl, Exists_cons_hd; auto|left; lra]. Qed.
Print Assumptions C53_assembly.
Print Assumptions C53_pairs.
Print Assumptions C53_exact.
Print Assumptions C53_directional.
Print Assumptions C71_truncation.
Print Assumptions C71_rt60.
Print Assumptions C71_failed.
Print Assumptions C71_no_microphones.
Print Assumptions C71_rt60_refuted.
Print Assumptions C72_filter.
Print Assumptions C73_parameters.
Print Assumptions C73_empty.
