(** C131: walking over a collection.  C132: adding processors.  C133: the power of Gold sequences. *)
Require Import Verif.PyBase Verif.PyLemmas Verif.ConfigModel Verif.ArrayModel Verif.ArraySpec Verif.ArrayProofs Verif.ArrayPaths Verif.LoggerModel Verif.SimModel Verif.SourceModel Verif.SourceSpec Verif.SourceProofs
  Verif.GoldProps Verif.IterModel Verif.Demo Verif.DemoRun Verif.ArrayProps Verif.ScriptModel Verif.ScriptProps.
Set Implicit Arguments.
Local Open Scope Z_scope.

Section Walk.
Context {E : AEnv}.
Notation arr := (arr Pos Src).
Notation coll := (coll E).
Implicit Types c : coll.

(** C131.  Iterating gives the arrays that were added, in that order; a name is in the collection exactly if one of them has it; the collection is empty exactly if none was added. *)
Theorem C131_walk g (l : list arr) c : add_all (empty_coll g) l = Ok c ->
  coll_iter c = l /\ (forall name, coll_contains c name = true <-> exists a, In a l /\ a_name a = name) /\ (coll_empty c = true <-> l = []).
Proof.
  intros H. destruct (add_all_ok _ (empty_coll_ok g) H) as (O & HA & _). simpl in HA. unfold coll_iter, coll_contains, coll_empty. rewrite HA. split; [rewrite map_map; apply map_id|]. split.
  - intros name. rewrite dmem_spec. unfold dkeys. rewrite map_map. cbn [fst]. rewrite in_map_iff. firstorder.
  - rewrite zlen_map. destruct l; [rewrite zlen_nil; tauto|]. rewrite zlen_cons. pose proof (zlen_nonneg l). split; [lia|discriminate].
Qed.

(** all pairs of a source and a microphone: the first source with every microphone, then the second source, and so on *)
Definition all_pairs c : list (arr * arr) := flat_map (fun s => map (fun m => (s, m)) (filter (fun a => match a_kind a with KMic | KRegion => true | _ => false end) (coll_iter c)))
  (filter (fun a => match a_kind a with KCtrl | KFree => true | _ => false end) (coll_iter c)).
(** what is stored for a pair *)
Definition stored c (sm : arr * arr) : option (path V) := match dget (c_paths c) (a_name (fst sm)) with Some d => dget d (a_name (snd sm)) | None => None end.

Lemma pairs_names c : coll_ok c -> list_prod (c_src c) (c_mic c) = map (fun sm => (a_name (fst sm), a_name (snd sm))) (all_pairs c) /\
  forall s m, In (s, m) (all_pairs c) -> the_array c (a_name s) s /\ the_array c (a_name m) m /\ is_source s = true /\ is_mic m = true.
Proof.
  intros O. pose proof (combos_eq O) as H. destruct (combos_names O H) as [A B].
  assert (Q : list_prod (filter is_source (map snd (c_arrays c))) (filter is_mic (map snd (c_arrays c))) = all_pairs c).
  { unfold all_pairs. rewrite (filter_ext (fun a : arr => match a_kind a with KCtrl | KFree => true | _ => false end) is_source) by (intros a; unfold is_source; destruct (a_kind a); reflexivity).
    rewrite (filter_ext (fun a : arr => match a_kind a with KMic | KRegion => true | _ => false end) is_mic) by (intros a; unfold is_mic; destruct (a_kind a); reflexivity).
    fold (coll_iter c). generalize (filter is_mic (coll_iter c)) as ms. intros ms. induction (filter is_source (coll_iter c)) as [|s r IH]; [reflexivity|]. cbn [list_prod flat_map]. rewrite IH. reflexivity. }
  rewrite Q in A, B. split; [symmetry; exact A|]. intros s m I. apply B in I. exact I.
Qed.
Lemma yield_walk c : forall l, (forall s m, In (s, m) l -> the_array c (a_name s) s /\ the_array c (a_name m) m) ->
  exists before after, l = before ++ after /\ (exists ps, Forall2 (fun sm p => stored c sm = Some p) before ps /\ fst (yield_paths c (map (fun sm => (a_name (fst sm), a_name (snd sm))) l)) = combine before ps) /\
    (snd (yield_paths c (map (fun sm => (a_name (fst sm), a_name (snd sm))) l)) = Ok tt /\ after = [] \/
     snd (yield_paths c (map (fun sm => (a_name (fst sm), a_name (snd sm))) l)) = Err KeyError /\ exists sm r, after = sm :: r /\ stored c sm = None).
Proof.
  induction l as [|[s m] l IH]; intros H.
  - exists [], []. split; [reflexivity|]. split; [exists []; split; [constructor|reflexivity]|]. left. split; reflexivity.
  - destruct (H s m (or_introl eq_refl)) as [Ts Tm]. destruct IH as (bf & af & -> & (ps & F & HY) & R); [intros; apply H; right; auto|]. cbn [map fst snd yield_paths]. unfold dget2E, dgetE. unfold the_array in Ts, Tm. rewrite Ts, Tm. cbn [bind].
    assert (S : stored c (s, m) = match dget (c_paths c) (a_name s) with Some d => dget d (a_name m) | None => None end) by reflexivity.
    destruct (dget (c_paths c) (a_name s)) as [d|]; cbn [bind].
    + destruct (dget d (a_name m)) as [p|] eqn:Q; cbn [bind].
      * exists ((s, m) :: bf), af. split; [reflexivity|]. destruct (yield_paths c (map _ (bf ++ af))) as [out o]. cbn [fst snd] in *. split.
        -- exists (p :: ps). split; [constructor; auto|]. cbn [combine]. f_equal. exact HY.
        -- exact R.
      * exists [], ((s, m) :: bf ++ af). split; [reflexivity|]. cbn [fst snd]. split; [exists []; split; [constructor|reflexivity]|]. right. split; [reflexivity|]. eauto.
    + exists [], ((s, m) :: bf ++ af). split; [reflexivity|]. cbn [fst snd]. split; [exists []; split; [constructor|reflexivity]|]. right. split; [reflexivity|]. eauto.
Qed.
(** C131.  iter_paths yields the pairs in order, each with its own path, until the end or until the first pair that has no path: then it raises KeyError. *)
Theorem C131_paths c : coll_ok c -> exists before after, all_pairs c = before ++ after /\
  (exists ps, Forall2 (fun sm p => stored c sm = Some p) before ps /\ fst (iter_paths c) = combine before ps) /\
  (snd (iter_paths c) = Ok tt /\ after = [] \/ snd (iter_paths c) = Err KeyError /\ exists sm r, after = sm :: r /\ stored c sm = None).
Proof.
  intros O. destruct (pairs_names O) as [A B]. unfold iter_paths. rewrite A. apply yield_walk. intros s m I. destruct (B s m I) as (X & Y & _). split; auto.
Qed.
(** C131.  Once the impulse responses are set up every pair comes exactly once, if those pairs that are kept as they were given (type "modified") have a path. *)
Theorem C131_set_up c i c' : coll_ok c -> setup_ir c i = Ok c' ->
  (forall sm, In sm (all_pairs c) -> match dget (c_ptypes c) (a_name (fst sm)) with Some d => dget d (a_name (snd sm)) | None => None end = Some "modified"%string -> stored c sm <> None) ->
  snd (iter_paths c') = Ok tt /\ map fst (fst (iter_paths c')) = all_pairs c' /\ all_pairs c' = all_pairs c /\ NoDup (map (fun sm => (a_name (fst sm), a_name (snd sm))) (all_pairs c')).
Proof.
  intros O H HM. destruct (setup_ir_ok _ O H) as (cs & P & Hc & HR & HN & HL & _ & A & _ & O'). assert (QA : c_arrays c' = c_arrays c) by (rewrite (sa_arrays A); reflexivity).
  assert (QP : all_pairs c' = all_pairs c) by (unfold all_pairs, coll_iter; rewrite QA; reflexivity).
  assert (ND : NoDup (map (fun sm => (a_name (fst sm), a_name (snd sm))) (all_pairs c'))).
  { destruct (pairs_names O') as [Q _]. rewrite <- Q. apply NoDup_list_prod; [apply (NoDup_src O')|apply (NoDup_mic O')]. }
  assert (ALL : forall sm, In sm (all_pairs c') -> stored c' sm <> None).
  { intros [s m] I. rewrite QP in I. destruct (pairs_names O) as [_ B]. destruct (B s m I) as (Ts & Tm & Ks & Km). destruct (@regenerate_values E _ _ _ _ _ _ _ HR HN) as [R1 R2].
    change (stored c' (s, m)) with (lookup2 (c_paths c') (a_name s) (a_name m)). rewrite HL. destruct (combos_names O Hc) as [_ HC]. assert (Ic : In (s, m) cs) by (apply HC; auto).
    destruct (generated c (s, m)) eqn:G.
    - destruct (R1 s m) as (t & g1 & g2 & p & _ & _ & ->); [apply filter_In; auto|discriminate].
    - rewrite R2.
      + apply (HM (s, m) I). change (lookup2 (c_ptypes c) (a_name s) (a_name m) = Some "modified"%string). unfold generated in G. cbn [fst snd] in G. destruct (lookup2 (c_ptypes c) (a_name s) (a_name m)) as [t|]; [|discriminate]. destruct (String.eqb_spec t "modified"%string); [subst; reflexivity|discriminate].
      + intros K. unfold pair_names in K. apply in_map_iff in K as ([s2 m2] & Q & K). cbn [fst snd] in Q. injection Q as Q1 Q2. apply filter_In in K as [K G2]. apply HC in K as (X & Y & _). unfold generated in G, G2. cbn [fst snd] in G, G2. rewrite Q1, Q2 in G2. rewrite G in G2. discriminate. }
  destruct (C131_paths O') as (bf & af & QB & (ps & F & QY) & [[QO ->]|(QO & sm & r & -> & QS)]).
  - rewrite app_nil_r in QB. split; [exact QO|]. split; [|auto]. rewrite QY, QB. clear -F. induction F; [reflexivity|]. cbn [combine map fst]. f_equal. auto.
  - exfalso. apply (ALL sm); [rewrite QB; apply in_or_app; right; left; reflexivity|exact QS].
Qed.
End Walk.

(* ------------------------------------------------------------------ C132 *)
Section Add.
Context {P : Type}.
(** one processor, or several *)
Inductive described : processor_arg P -> list P -> Prop :=
| one_processor p : described (mkArg p None) [p]
| several p l : described (mkArg p (Some (l, None))) l.
Lemma added_all : forall (l : list (processor_arg P)) ds procs, Forall2 described l ds -> add_processors procs l = (procs ++ concat ds, Ok tt).
Proof.
  induction l as [|a l IH]; intros ds procs F; inversion F as [|? d ? ds' D F']; subst; cbn [add_processors concat]; [rewrite app_nil_r; reflexivity|].
  inversion D; subst; unfold add_processor; cbn [pa_items pa_object]; rewrite (IH ds') by auto; rewrite <- app_assoc; reflexivity.
Qed.
End Add.
(** C132.  However the processors are handed over, one by one or in lists, the simulator has all of them in the order of the calls; a simulation with more than one of them is refused before anything is done. *)
Theorem C132_added {E : AEnv} {S : SEnv} (l : list (processor_arg (@proc E S))) ds : Forall2 described l ds ->
  add_processors [] l = (concat ds, Ok tt) /\ (1 < zlen (concat ds) -> forall i c diags, run_simulation i c (concat ds) diags = Err NotImplementedError).
Proof.
  intros F. split; [apply (@added_all _ l ds [] F)|]. intros H i c diags. unfold run_simulation, prepare_simulation. destruct (Z.ltb_spec 1 (zlen (concat ds))); [reflexivity|lia].
Qed.
(** C132.  An iteration that fails keeps the processors that came before; a TypeError that is raised inside it is taken for an object that cannot be iterated over: the object itself is added too and nothing is reported. *)
Theorem C132_failed P (procs : list P) p l e : add_processor procs (mkArg p (Some (l, Some e))) = if match e with TypeError => true | _ => false end then (procs ++ l ++ [p], Ok tt) else (procs ++ l, Err e).
Proof. unfold add_processor. cbn [pa_items pa_object]. destruct e; try reflexivity. rewrite <- app_assoc. reflexivity. Qed.

(* ------------------------------------------------------------------ C133 *)
Section Gold.
Context {V : Type} (v0 : V) (vmul : V -> V -> V) (ofZ : Z -> V) (sqrt : V -> V).
Notation get := (gold_get v0 vmul ofZ).
Notation power_arg := (@power_arg V).
(** the argument is an array with all its values *)
Definition an_array (a : power_arg) : Prop := match a with NdArray shape values => Forall (fun n => 0 <= n) shape /\ zlen values = fold_right Z.mul 1 shape | _ => True end.
(** the powers: one for all channels, or one for each of n channels *)
Inductive powers : power_arg -> option Z -> (Z -> V) -> Prop :=
| p_number v : powers (Number v) None (fun _ => v)
| p_scalar v : powers (NdArray [] [v]) None (fun _ => v)
| p_vector n values : zlen values = n -> powers (NdArray [n] values) (Some n) (fun c => match zget values c with Some x => x | None => v0 end)
| p_column n values : zlen values = n -> powers (NdArray [n; 1] values) (Some n) (fun c => match zget values c with Some x => x | None => v0 end).
(** the sequence of channel c, played again and again *)
Definition chips (order : Z) (x1 x2 : Z -> bool) (c t : Z) : Z :=
  let L := 2 ^ order - 1 in - (sign (x1 (t mod L)) * sign (x2 ((t mod L - c) mod L))).

(** C133.  A number, an array without axes, a vector and a matrix with one column are taken; everything else is refused. *)
Theorem C133_accepted a : an_array a ->
  match power_column a with
  | Ok p => exists n f, powers a n f /\ match n with None => p = [f 0] | Some n => zlen p = n /\ forall c, 0 <= c < n -> zget p c = Some (f c) end
  | Err e => e = match a with NdArray [_; _] _ => AssertionError | NdArray _ _ => ValueError | _ => AttributeError end /\ forall n f, ~ powers a n f
  end.
Proof.
  assert (G : forall l : list V, forall c, 0 <= c < zlen l -> zget l c = Some (match zget l c with Some x => x | None => v0 end)) by (intros l c H; destruct (@zget_in_range _ l c H) as (x & ->); reflexivity).
  destruct a as [v|shape values|]; intros H; cbn [power_column].
  - exists None, (fun _ => v). split; [constructor|reflexivity].
  - destruct H as [F H]. destruct shape as [|n [|k [|z r]]]; cbn [fold_right] in H.
    + destruct values as [|v [|w r]]; rewrite ?zlen_cons, ?zlen_nil in H; try (pose proof (zlen_nonneg r)); try lia. exists None, (fun _ => v). split; [constructor|reflexivity].
    + eexists (Some n), _. split; [constructor; lia|]. cbn beta iota. split; [lia|]. intros c Hc. apply G. lia.
    + unfold passert. destruct (Z.eqb_spec k 1) as [->|N]; cbn [bind].
      * eexists (Some n), _. split; [constructor; lia|]. cbn beta iota. split; [lia|]. intros c Hc. apply G. lia.
      * split; [reflexivity|]. intros n' f K. inversion K; subst. apply N. reflexivity.
    + split; [reflexivity|]. intros n' f K. inversion K.
  - split; [reflexivity|]. intros n f K. inversion K.
Qed.

(** one request to a generator in the middle of its sequence *)
Lemma gold_step channels L sg p t n : 0 <= channels -> 31 <= L -> (zlen p = 1 \/ zlen p = channels) -> 0 <= t -> 0 <= n ->
  get (mkGold (grid channels L sg) L p (t mod L)) n = Ok (piece channels (fun c k => vmul (ofZ (sg c (k mod L))) (one_or_each v0 p c)) t n, mkGold (grid channels L sg) L p ((t + n) mod L)).
Proof.
  intros HC HL Hl Ht Hn. unfold gold_get. cbn [gd_idx gd_len gd_sequences gd_amplitude].
  assert (Hz : zlen (grid channels L sg) = channels) by (unfold grid; rewrite zlen_map, zlen_zrange; lia). rewrite Hz.
  destruct (@copy_cyclic' V channels L (fun c k => ofZ (sg c k)) v0 (t mod L) n (map (map ofZ) (grid channels L sg))) as (bl & E1 & E2);
    [unfold grid; rewrite map_map; apply map_ext; intros c; rewrite map_map; auto|lia|lia|apply Z.mod_pos_bound; lia|lia|].
  rewrite E1. cbn [bind]. rewrite E2. cbn [bind fst snd]. rewrite Zplus_mod_idemp_l.
  assert (Hg : forall a, map (map (fun x => vmul x a)) (grid channels n (fun c k => ofZ (sg c ((t mod L + k) mod L)))) = piece channels (fun c k => vmul (ofZ (sg c (k mod L))) a) t n).
  { intros a. unfold piece, grid. rewrite map_map. apply map_ext. intros c. rewrite map_map. apply map_ext. intros k. rewrite Zplus_mod_idemp_l. auto. }
  assert (Hg2 : zlen p = channels -> map (fun q => map (fun x => vmul x (snd q)) (fst q)) (combine (grid channels n (fun c k => ofZ (sg c ((t mod L + k) mod L)))) p) =
     piece channels (fun c k => vmul (ofZ (sg c (k mod L))) (match zget p c with Some a => a | None => v0 end)) t n).
  { intros Hlen. apply zget_ext. intros c. unfold piece, grid. rewrite !zget_map, zget_combine, zget_map, zget_zrange, Z.sub_0_r. destruct ((0 <=? c) && (c <? channels))%bool eqn:Q; auto. cbn [option_map]. rewrite Z.add_0_l.
    destruct (@zget_in_range _ p c) as (a & Ha); [lia|]. rewrite Ha. cbn [option_map fst snd]. f_equal. rewrite map_map. apply map_ext. intros k. rewrite Zplus_mod_idemp_l. auto. }
  assert (Hz2 : forall h : Z -> Z -> V, zlen (grid channels n h) = channels) by (intros h; unfold grid; rewrite zlen_map, zlen_zrange; lia).
  unfold scale_rows, one_or_each. rewrite Hz2. destruct p as [|a [|b r]].
  - rewrite zlen_nil in *. replace (channels =? 0) with true by lia. cbn [bind]. do 2 f_equal. apply Hg2. lia.
  - cbn [bind]. rewrite Hg. reflexivity.
  - assert (Hl2 : zlen (a :: b :: r) = channels) by (rewrite !zlen_cons in *; pose proof (zlen_nonneg r); lia). rewrite Hl2, Z.eqb_refl. cbn [bind]. do 2 f_equal. apply Hg2. exact Hl2.
Qed.
Lemma gold_run channels L sg p : 0 <= channels -> 31 <= L -> (zlen p = 1 \/ zlen p = channels) -> forall ns t, Forall (fun n => 0 <= n) ns -> 0 <= t ->
  request_all get (mkGold (grid channels L sg) L p (t mod L)) ns = Ok (cut channels (fun c k => vmul (ofZ (sg c (k mod L))) (one_or_each v0 p c)) t ns, mkGold (grid channels L sg) L p ((t + fold_right Z.add 0 ns) mod L)).
Proof.
  intros HC HL Hl. induction ns as [|n ns IH]; intros t F Ht; cbn [request_all cut fold_right]; [rewrite Z.add_0_r; reflexivity|]. inversion F; subst. rewrite gold_step by auto. cbn [bind fst snd].
  rewrite IH by (auto; lia). cbn [bind fst snd]. do 3 f_equal. f_equal. lia.
Qed.
Lemma cut_shift channels (f : Z -> Z -> V) ns : forall t s, cut channels f (s + t) ns = cut channels (fun c k => f c (s + k)) t ns.
Proof.
  induction ns as [|n ns IH]; intros t s; [reflexivity|]. cbn [cut]. rewrite <- Z.add_assoc, IH. f_equal. unfold piece. apply map_ext. intros c. apply map_ext. intros k. f_equal. lia.
Qed.
Lemma cut_ext channels (f g : Z -> Z -> V) ns : (forall c k, 0 <= c < channels -> f c k = g c k) -> forall t, cut channels f t ns = cut channels g t ns.
Proof.
  intros H. induction ns as [|n ns IH]; intros t; [reflexivity|]. cbn [cut]. rewrite IH. f_equal. unfold piece. apply map_ext_in. intros c Hc. apply In_zrange in Hc. apply map_ext. intros k. apply H. lia.
Qed.
Lemma powers_column a n f channels : powers a n f -> 0 <= channels -> (n = None \/ n = Some channels) -> exists p, power_column a = Ok p /\ (zlen (map sqrt p) = 1 \/ zlen (map sqrt p) = channels) /\
  forall c, 0 <= c < channels -> one_or_each v0 (map sqrt p) c = sqrt (f c).
Proof.
  intros H HC HN. assert (G : forall values, zlen values = channels -> forall c, 0 <= c < channels -> one_or_each v0 (map sqrt values) c = sqrt (match zget values c with Some x => x | None => v0 end)).
  { intros values Hv c Hc. destruct (@zget_in_range _ values c) as (x & Hx); [lia|]. rewrite Hx. unfold one_or_each. destruct values as [|a1 [|b r]]; cbn [map].
    - rewrite zlen_nil in Hv. lia.
    - rewrite zlen_cons, zlen_nil in Hv. assert (c = 0) by lia. subst c. injection Hx as <-. reflexivity.
    - change (sqrt a1 :: sqrt b :: map sqrt r) with (map sqrt (a1 :: b :: r)). rewrite zget_map, Hx. reflexivity. }
  inversion H; subst; cbn [power_column].
  - exists [v]. split; [reflexivity|]. split; [left; reflexivity|]. intros; reflexivity.
  - exists [v]. split; [reflexivity|]. split; [left; reflexivity|]. intros; reflexivity.
  - destruct HN as [HN|HN]; [discriminate|]. injection HN as HN. exists values. split; [reflexivity|]. split; [right; rewrite zlen_map; exact HN|]. apply G. exact HN.
  - destruct HN as [HN|HN]; [discriminate|]. injection HN as HN. exists values. split; [reflexivity|]. split; [right; rewrite zlen_map; exact HN|]. apply G. exact HN.
Qed.
(** C133.  Every channel plays its own sequence with the root of its power; if the power is changed at any time, however many samples were requested before, the sequences go on where they were with the root of the new power. *)
Theorem C133_changed channels order t1 t2 x1 x2 a n f b k h : preferred order = Some (t1, t2) -> 0 <= channels <= 2 ^ order - 1 -> register order t1 x1 -> register order t2 x2 ->
  powers a n f -> (n = None \/ n = Some channels) -> powers b k h -> (k = None \/ k = Some channels) ->
  exists s, gold_new sqrt channels a order = Ok s /\ forall ns, Forall (fun n => 0 <= n) ns ->
    exists s1 s2, request_all get s ns = Ok (cut channels (fun c t => vmul (ofZ (chips order x1 x2 c t)) (sqrt (f c))) 0 ns, s1) /\ gold_set_power sqrt s1 b = Ok s2 /\
      plays get channels (fun c t => vmul (ofZ (chips order x1 x2 c (fold_right Z.add 0 ns + t))) (sqrt (h c))) s2.
Proof.
  intros HP HC R1 R2 PA NA PB NB. destruct (powers_column PA (proj1 HC) NA) as (p & Ep & Lp & Fp). destruct (powers_column PB (proj1 HC) NB) as (q & Eq & Lq & Fq).
  destruct (@gold_made V vmul ofZ sqrt channels p order t1 t2 x1 x2 HP HC R1 R2) as (HL & E0). set (L := 2 ^ order - 1) in *. set (sg := fun c k => - (sign (x1 k) * sign (x2 ((k - c) mod L)))) in E0.
  eexists. split. { unfold gold_new, passert. fold L. destruct (Z.leb_spec channels L); [|lia]. cbn [bind]. rewrite Ep. cbn [bind]. exact E0. }
  intros ns F. pose proof (@gold_run channels L sg (map sqrt p) ltac:(lia) HL Lp ns 0 F ltac:(lia)) as K. rewrite (Z.mod_0_l L) in K by lia. eexists. eexists. split; [|split].
  - etransitivity; [exact K|]. f_equal. f_equal. apply cut_ext. intros c t Hc. rewrite Fp by auto. reflexivity.
  - unfold gold_set_power. rewrite Eq. cbn [bind gd_sequences gd_len gd_idx]. reflexivity.
  - rewrite Z.add_0_l. assert (0 <= fold_right Z.add 0 ns) by (clear -F; induction F; cbn [fold_right]; lia). intros ms G. eexists. rewrite gold_run by (auto; lia). f_equal. f_equal. rewrite <- (Z.add_0_r (fold_right Z.add 0 ns)) at 1. rewrite cut_shift. apply cut_ext. intros c t Hc. rewrite Fq by auto. reflexivity.
Qed.
(** C133, errors: too many channels first, then powers of a wrong form, then orders without sequences. *)
Theorem C133_refused channels order a : an_array a -> (2 ^ order - 1 < channels -> gold_new sqrt channels a order = Err AssertionError) /\
  (channels <= 2 ^ order - 1 -> (forall n f, ~ powers a n f) -> gold_new sqrt channels a order = Err (match a with NdArray [_; _] _ => AssertionError | NdArray _ _ => ValueError | _ => AttributeError end)).
Proof.
  intros HA. unfold gold_new, passert. split; intros H; [destruct (Z.leb_spec channels (2 ^ order - 1)); [lia|reflexivity]|]. intros N. destruct (Z.leb_spec channels (2 ^ order - 1)); [|lia]. cbn [bind].
  pose proof (C133_accepted a HA) as K. destruct (power_column a) as [p|e]; [destruct K as (n & f & K & _); contradiction (N n f K)|]. destruct K as [-> _]. reflexivity.
Qed.
End Gold.
(** C133, false: with one channel and more than one power the output has a row for each power, though the source says it has one channel. *)
Theorem C133_channels_refuted : ~ (forall channels (a : @power_arg Z) order s n out s', 0 <= channels -> 0 <= n -> gold_new (fun v => v) channels a order = Ok s -> gold_get 0 Z.mul (fun z => z) s n = Ok (out, s') -> zlen out = channels).
Proof.
  intros H. destruct (gold_new (fun v : Z => v) 1 (NdArray [2] [3; 4]) 5) as [s|] eqn:Q; [|vm_compute in Q; discriminate]. destruct (gold_get 0 Z.mul (fun z => z) s 2) as [[out s']|] eqn:R.
  - assert (zlen out = 2); [|pose proof (H 1 _ 5 s 2 out s' ltac:(lia) ltac:(lia) Q R); lia]. vm_compute in Q. injection Q as <-. vm_compute in R. injection R as <- _. reflexivity.
  - vm_compute in Q. injection Q as <-. vm_compute in R. discriminate.
Qed.

(* ------------------------------------------------------------------ examples *)
Section Examples.
Local Existing Instances demo demo_s.
Local Open Scope string_scope.
Local Open Scope Z_scope.
Example C131_walk_meets : exists c, add_all (empty_coll ex_g) ex_arrays = Ok c /\ map (fun a => a_name a) (coll_iter c) = ["mic1"; "src"; "mic2"; "spk"].
Proof.
  assert (I : is_ok (add_all (empty_coll ex_g) ex_arrays) = true) by (vm_compute; reflexivity). destruct (is_ok_ex _ I) as [c H]. exists c. split; [exact H|]. destruct (C131_walk _ _ H) as [-> _]. vm_compute. reflexivity.
Qed.
Definition pair_name (x : arr Pos Src * arr Pos Src * path V) : string * string := (a_name (fst (fst x)), a_name (snd (fst x))).
(** every pair of type "modified" has a path *)
Definition kept_paths (c : coll demo) : bool := forallb (fun sm => match lookup2 (c_ptypes c) (a_name (fst sm)) (a_name (snd sm)), stored c sm with Some t, None => negb (String.eqb t "modified") | _, _ => true end) (all_pairs c).
Lemma get_is A (r : res (coll demo)) c (f : coll demo -> A) x : r = Ok c -> get r f = Some x -> f c = x.
Proof. intros -> H. cbn [get] in H. injection H as H. exact H. Qed.
(** before the impulse responses are set up only the first path is there *)
Example C131_paths_meets : exists c, ex_coll = Ok c /\ coll_ok c /\ map pair_name (fst (iter_paths c)) = [("src", "mic1")] /\ snd (iter_paths c) = Err KeyError.
Proof.
  assert (I : is_ok ex_coll = true) by (vm_compute; reflexivity). destruct (is_ok_ex _ I) as [c H]. exists c. split; [exact H|]. split.
  - unfold ex_coll in H. apply bind_ok in H as (c0 & Q0 & H). apply bind_ok in H as (c1 & Q1 & H). apply bind_ok in H as (c2 & Q2 & Q3).
    apply (built_ok (Q := sized (fun _ => 1))). eapply built_default; [|exact Q3]. eapply built_type; [|exact Q2]. eapply built_path; [|exact Q1]. exact (ex_add Q0).
  - split; [apply (get_is (fun c => map pair_name (fst (iter_paths c))) H)|apply (get_is (fun c => snd (iter_paths c)) H)]; vm_compute; reflexivity.
Qed.
Example C131_set_up_meets : exists c c', ex_coll = Ok c /\ coll_ok c /\ setup_ir c demo_info = Ok c' /\
  (forall sm, In sm (all_pairs c) -> match dget (c_ptypes c) (a_name (fst sm)) with Some d => dget d (a_name (snd sm)) | None => None end = Some "modified" -> stored c sm <> None) /\
  map pair_name (fst (iter_paths c')) = [("src", "mic1"); ("src", "mic2"); ("spk", "mic1"); ("spk", "mic2")].
Proof.
  destruct C131_paths_meets as (c & H & O & _). assert (J : is_ok (c <- ex_coll ;; setup_ir c demo_info) = true) by (vm_compute; reflexivity). destruct (is_ok_ex _ J) as [c' K].
  exists c, c'. split; [exact H|]. split; [exact O|]. split; [rewrite H in K; exact K|]. split.
  - assert (B : kept_paths c = true) by (apply (get_is kept_paths H); vm_compute; reflexivity). intros sm I M N. unfold kept_paths in B. rewrite forallb_forall in B. specialize (B sm I). unfold lookup2 in B. rewrite M, N in B. discriminate B.
  - apply (get_is (fun c => map pair_name (fst (iter_paths c))) K). vm_compute. reflexivity.
Qed.
Example C132_added_meets : Forall2 described [mkArg (dplayer 4) None; mkArg (dplayer 1) (Some ([dplayer 2; dplayer 3], None))] [[dplayer 4]; [dplayer 2; dplayer 3]] /\ 1 < zlen (concat [[dplayer 4]; [dplayer 2; dplayer 3]]).
Proof. split; [repeat constructor|vm_compute; reflexivity]. Qed.
Example C132_failed_meets : add_processor [1] (mkArg 9 (Some ([2; 3], Some TypeError))) = ([1; 2; 3; 9], Ok tt) /\ add_processor [1] (mkArg 9 (Some ([2; 3], Some ValueError))) = ([1; 2; 3], Err ValueError).
Proof. split; reflexivity. Qed.
Example C133_accepted_meets : an_array (NdArray [2; 1] [3; 4]) /\ power_column (NdArray [2; 1] [3; 4]) = Ok [3; 4] /\ an_array (NdArray [1; 2] [3; 4]) /\ power_column (NdArray [1; 2] [3; 4]) = Err AssertionError /\
  an_array (NdArray [1; 1; 1] [3]) /\ power_column (NdArray [1; 1; 1] [3]) = Err ValueError.
Proof. repeat split; repeat constructor; lia. Qed.
Example C133_changed_meets : exists x1 x2, preferred 5 = Some ([2], [1; 2; 3]) /\ 0 <= 2 <= 2 ^ 5 - 1 /\ register 5 [2] x1 /\ register 5 [1; 2; 3] x2 /\ powers 0 (NdArray [2] [3; 4]) (Some 2) (fun c => match zget [3; 4] c with Some x => x | None => 0 end) /\
  powers 0 (Number 7) None (fun _ => 7).
Proof.
  destruct C30_example as (x1 & x2 & R1 & R2 & P & _). exists x1, x2. split; [exact P|]. split; [vm_compute; split; discriminate|]. split; [exact R1|]. split; [exact R2|]. split; constructor. reflexivity.
Qed.
Example C133_refused_meets : an_array (NdArray [1; 2] [3; 4]) /\ 2 <= 2 ^ 5 - 1 /\ forall n f, ~ powers 0 (NdArray [1; 2] [3; 4]) n f.
Proof. split; [repeat constructor; lia|]. split; [vm_compute; discriminate|]. intros n f H. inversion H. Qed.
End Examples.
Print Assumptions C131_walk.
Print Assumptions C131_paths.
Print Assumptions C131_set_up.
Print Assumptions C132_added.
Print Assumptions C132_failed.
Print Assumptions C133_accepted.
Print Assumptions C133_changed.
Print Assumptions C133_refused.
Print Assumptions C133_channels_refuted.
