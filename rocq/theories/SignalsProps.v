(** C102: the signals of a simulation. *)
Require Import Verif.PyBase Verif.PyLemmas Verif.ConfigModel Verif.ArrayModel Verif.ArraySpec Verif.ArrayProofs Verif.LoggerModel Verif.SimModel Verif.SimSpec Verif.SimRefine Verif.SimRun.
Set Implicit Arguments.
Local Open Scope Z_scope.
Local Open Scope list_scope.

Section Signals.
Context {E : AEnv} {S : SEnv}.
Notation arr := (arr Pos Src).

(** names and numbers of channels of the signals: one for each array, one for each pair of source and microphone array if contributions are
    saved, and those that the processor has created under new names *)
Definition array_signals (c : coll E) : list (string * Z) := map (fun kv => (a_name (snd kv), a_num (snd kv))) (c_arrays c).
Definition pair_signals (c : coll E) : list (string * Z) :=
  flat_map (fun s => map (fun m => (a_name s ++ "~" ++ a_name m, a_num m)%string) (filter is_mic (map snd (c_arrays c)))) (filter is_source (map snd (c_arrays c))).
Definition new_signals (known : list (string * Z)) (procs : list proc) : list (string * Z) :=
  match procs with [] => [] | p :: _ => filter (fun nd => if in_dec string_dec (fst nd) (map fst known) then false else true) (pr_locals p) end.
Definition expected_signals (contributions : bool) (c : coll E) (procs : list proc) : list (string * Z) :=
  let known := array_signals c ++ (if contributions then pair_signals c else []) in known ++ new_signals known procs.

(** all buffers have [N] frames of the width of their signal *)
Definition regular (N : Z) (ds : list (string * Z)) (s : signals) : Prop :=
  map (fun kv => (fst kv, fst (snd kv))) s = ds /\
  forall name d buf, In (name, (d, buf)) s -> zlen buf = N /\ forall f, In f buf -> zlen f = Z.max 0 d.

Lemma In_dset {A} (d : dict A) k v k' v' : In (k', v') (dset d k v) -> (k', v') = (k, v) \/ In (k', v') d.
Proof. induction d as [|[q w] d IH]; cbn; intros H; [destruct H; auto; tauto|]. destruct (String.eqb k q); cbn in H; destruct H as [H|H]; auto. { apply IH in H. tauto. } Qed.
Lemma dget_In' {A} (d : dict A) k v : dget d k = Some v -> In (k, v) d.
Proof. induction d as [|[q w] d IH]; cbn; [discriminate|]. destruct (String.eqb_spec k q); [intros H; injection H as ->; subst; auto|auto]. Qed.
Lemma regular_put N ds s k d buf buf' : regular N ds s -> dget s k = Some (d, buf) -> zlen buf' = N -> (forall f, In f buf' -> zlen f = Z.max 0 d) -> regular N ds (dset s k (d, buf')).
Proof.
  intros (H1 & H2) G L W. split.
  - exact (eq_trans (dims_of_dset _ _ _ G) H1).
  - intros name d0 b H. apply In_dset in H as [H|H]; [injection H as -> -> ->; auto|eauto].
Qed.
Lemma put_len {A} (l new l' : list A) a b : pyslice_set l a b new = Ok l' -> zlen l' = zlen l /\ forall x, In x l' -> In x l \/ In x new.
Proof.
  unfold pyslice_set. set (lo := norm_idx (zlen l) a). set (hi := norm_idx (zlen l) b). set (n := Z.max 0 (hi - lo)).
  assert (B : 0 <= lo <= zlen l /\ 0 <= hi <= zlen l). { unfold lo, hi, norm_idx. pose proof (zlen_nonneg l). split; repeat match goal with |- context [if ?b then _ else _] => destruct b eqn:? end; lia. }
  assert (K : forall xs, zlen xs = n -> zlen (firstn (Z.to_nat lo) l ++ xs ++ skipn (Z.to_nat (lo + n)) l) = zlen l /\ forall x, In x (firstn (Z.to_nat lo) l ++ xs ++ skipn (Z.to_nat (lo + n)) l) -> In x l \/ In x xs).
  { intros xs Hx. split.
    - unfold zlen in *. rewrite !app_length, firstn_length, skipn_length. lia.
    - intros x H. rewrite !in_app_iff in H. destruct H as [H|[H|H]]; auto; left; [apply (firstn_In _ _ _ H) || (rewrite <- (firstn_skipn (Z.to_nat lo) l); apply in_or_app; auto)|rewrite <- (firstn_skipn (Z.to_nat (lo + n)) l); apply in_or_app; auto]. }
  destruct (Z.eqb_spec (zlen new) n) as [e|e].
  - intros H. injection H as <-. apply K; auto.
  - destruct new as [|x [|? ?]]; intros H; try discriminate. injection H as <-. destruct (K (zrep n x)) as (K1 & K2). { rewrite zlen_zrep. unfold n. lia. }
    split; auto. intros y Hy. apply K2 in Hy as [Hy|Hy]; auto. right. left. unfold zrep in Hy. apply repeat_spec in Hy. auto.
Qed.
Lemma in_pyslice {A} (l : list A) a b x : In x (pyslice l a b) -> In x l.
Proof. unfold pyslice. intros H. rewrite <- (firstn_skipn (Z.to_nat (norm_idx (zlen l) a)) l). apply in_or_app. right. set (r := skipn _ l) in *. rewrite <- (firstn_skipn (Z.to_nat (norm_idx (zlen l) b - norm_idx (zlen l) a)) r). apply in_or_app. auto. Qed.
Lemma set_regular N ds s name a b new s' : regular N ds s -> sig_set s name a b new = Ok s' -> regular N ds s'.
Proof.
  intros R H. unfold sig_set in H. apply bind_ok in H as ((d, buf) & G & H). apply bind_ok in H as (new' & F & H). apply bind_ok in H as (buf' & P & H). injection H as <-. cbn [fst snd] in *.
  unfold dgetE in G. destruct (dget s name) as [q|] eqn:Q; [|discriminate]. injection G as ->. destruct (proj2 R _ _ _ (dget_In' _ _ Q)) as (L & W). destruct (put_len _ _ _ _ P) as (P1 & P2).
  apply regular_put with buf; auto; [exact (eq_trans P1 L)|]. intros f Hf. apply P2 in Hf as [Hf|Hf]; auto. destruct (mapM_In _ _ _ F Hf) as (x & _ & Hx). exact (fit_len _ _ Hx).
Qed.
Lemma fadd_list_in xs : forall ys zs z, fadd_list xs ys = Ok zs -> In z zs -> exists x y, In x xs /\ fadd x y = Ok z.
Proof.
  induction xs as [|x xs IH]; intros [|y ys] zs z H I; cbn [fadd_list] in H; try (injection H as <-; destruct I; fail).
  apply bind_ok in H as (w & Hw & H). apply bind_ok in H as (ws & Hws & H). injection H as <-. destruct I as [<-|I]; [exists x, y; split; [left|]; auto|]. destruct (IH _ _ _ Hws I) as (x' & y' & ? & ?). exists x', y'. split; auto. right; auto.
Qed.
Lemma add_regular N ds s name a b y s' : regular N ds s -> sig_add s name a b y = Ok s' -> regular N ds s'.
Proof.
  intros R H. unfold sig_add in H. apply bind_ok in H as ((d, buf) & G & H). apply bind_ok in H as (buf' & P & H). injection H as <-. cbn [fst snd] in *.
  unfold dgetE in G. destruct (dget s name) as [q|] eqn:Q; [|discriminate]. injection G as ->. destruct (proj2 R _ _ _ (dget_In' _ _ Q)) as (L & W).
  unfold slice_add in P. apply bind_ok in P as (z & Hz & P). destruct (put_len _ _ _ _ P) as (P1 & P2).
  apply regular_put with buf; auto; [exact (eq_trans P1 L)|]. intros f Hf. apply P2 in Hf as [Hf|Hf]; auto.
  assert (exists x y, In x (pyslice buf a b) /\ fadd x y = Ok f) as (x & y' & Hx & Hy).
  { destruct (zlen (pyslice buf a b) =? zlen y); [eapply fadd_list_in; eauto|]. destruct y as [|y0 [|? ?]]; try discriminate. eapply fadd_list_in; eauto. }
  rewrite (fadd_len _ _ Hy). apply W. apply (in_pyslice _ _ _ _ Hx).
Qed.
Lemma reset_regular i ds s : 0 < sim_buffer i -> 0 <= sim_chunk_size i -> regular (sim_buffer i + sim_chunk_size i) ds s -> regular (sim_buffer i + sim_chunk_size i) ds (reset_signals i s).
Proof.
  intros HB HC (R1 & R2). split; [unfold reset_signals; rewrite map_map; exact R1|]. intros name d buf H. unfold reset_signals in H. apply in_map_iff in H as ((k & d0 & b0) & H & I). cbn [fst snd] in H. injection H as -> -> <-. destruct (R2 _ _ _ I) as (L & W). split.
  - unfold pyslice. assert (N1 : norm_idx (zlen b0) (- sim_buffer i) = sim_chunk_size i) by (unfold norm_idx; repeat match goal with |- context [if ?b then _ else _] => destruct b eqn:? end; lia).
    assert (N2 : norm_idx (zlen b0) (zlen b0) = zlen b0) by (unfold norm_idx; repeat match goal with |- context [if ?b then _ else _] => destruct b eqn:? end; lia). rewrite N1, N2.
    pose proof (zlen_zrep (sim_chunk_size i) (@zeros E d)) as Z. unfold zlen in *. rewrite app_length, firstn_length, skipn_length. lia.
  - intros f Hf. apply in_app_or in Hf as [Hf|Hf]; [apply W; apply (in_pyslice _ _ _ _ Hf)|]. unfold zrep in Hf at 1. apply repeat_spec in Hf. subst. apply zlen_zeros.
Qed.
Lemma foldM_keeps {A X} (P : A -> Prop) (f : A -> X -> res A) l : (forall a x a', P a -> f a x = Ok a' -> P a') -> forall a a', P a -> foldM f a l = Ok a' -> P a'.
Proof. intros H. induction l as [|x l IH]; intros a a' Ha E0; cbn [foldM] in E0; [injection E0 as <-; auto|]. apply bind_ok in E0 as (b & Hb & E0). eauto. Qed.
Section Keep.
Context (N : Z) (ds : list (string * Z)).
Lemma free_keeps a b n names c s c' s' : regular N ds s -> foldM (run_free a b n) (c, s) names = Ok (c', s') -> regular N ds s'.
Proof.
  intros R H. refine (@foldM_keeps _ _ (fun cs => regular N ds (snd cs)) (run_free a b n) names _ (c, s) (c', s') R H). intros (c0, s0) name (c1, s1) R0 H0. unfold run_free in H0.
  apply bind_ok in H0 as (ar & _ & H0). destruct (a_source ar); [|discriminate]. match type of H0 with context [src_get ?x n] => destruct (src_get x n) as (src', xs) end. apply bind_ok in H0 as (sx & H3 & H0). injection H0 as <- <-. cbn [snd] in *. eapply set_regular; eauto.
Qed.
Lemma pair_keeps i a b ma mb combos fs s r : regular N ds s -> foldM (run_pair i a b ma mb) (fs, s) combos = Ok r -> regular N ds (snd r).
Proof.
  intros R H. refine (@foldM_keeps _ _ (fun cs => regular N ds (snd cs)) (run_pair i a b ma mb) combos _ (fs, s) r R H). intros (f0, s0) sm (f1, s1) R0 H0. unfold run_pair in H0. cbn [snd] in *.
  apply bind_ok in H0 as (f & _ & H0). apply bind_ok in H0 as (x & _ & H0). destruct (fir_process f x) as (f', y). apply bind_ok in H0 as (fs' & _ & H0). apply bind_ok in H0 as (s2 & H2 & H0). apply bind_ok in H0 as (s3 & H3 & H0). injection H0 as <- <-.
  apply (add_regular _ _ _ _ R0) in H2. destruct (save_source_contributions i); [eapply set_regular; eauto|]. injection H3 as <-. auto.
Qed.
Lemma procs_keep idx n procs ps s ps' s' : regular N ds s -> foldM (run_procs idx n) (ps, s) procs = Ok (ps', s') -> regular N ds s'.
Proof.
  intros R H. refine (@foldM_keeps _ _ (fun cs => regular N ds (snd cs)) (run_procs idx n) procs _ (ps, s) (ps', s') R H). intros (p0, s0) p (p1, s1) R0 H0. unfold run_procs in H0. cbn [snd] in *.
  destruct (pr_bs p =? 0); [discriminate|]. destruct (n mod pr_bs p =? pr_bs p - 1); [|injection H0 as <- <-; auto]. apply bind_ok in H0 as ((q & s2) & H2 & H0). injection H0 as <- <-. unfold process in H2. destruct (pr_step p _ _) as (ps1, outs). apply bind_ok in H2 as (s3 & H3 & H2). injection H2 as <- <-. cbn [snd].
  refine (@foldM_keeps _ _ (regular N ds) _ outs _ s0 s3 R0 H3). intros. eapply set_regular; eauto.
Qed.
Lemma step_keeps i mbs st st' : N = sim_buffer i + sim_chunk_size i -> 0 < sim_buffer i -> 0 <= sim_chunk_size i -> regular N ds (sm_sigs st) -> sim_step i mbs st = Ok st' -> regular N ds (sm_sigs st').
Proof.
  intros EN HB HC R H. unfold sim_step in H. apply bind_ok in H as (c & _ & H). apply bind_ok in H as ((ps & s) & H1 & H). apply procs_keep in H1; auto. apply bind_ok in H as (((c1 & s1) & fs1) & H2 & H).
  assert (R1 : regular N ds s1).
  { unfold propagate in H2. apply bind_ok in H2 as ((c2 & s2) & H3 & H2). apply free_keeps in H3; auto. apply bind_ok in H2 as (combos & _ & H2). apply bind_ok in H2 as (fs & _ & H2). apply bind_ok in H2 as (fss & H4 & H2). apply pair_keeps in H4; auto. injection H2 as _ <- _. auto. }
  apply bind_ok in H as (cp & _ & H). apply bind_ok in H as (dg & _ & H). cbv zeta in H. apply bind_ok in H as (q & _ & H). injection H as <-. cbn [sm_sigs]. match goal with |- context [if ?b then _ else _] => destruct b end; auto. rewrite EN in *. apply reset_regular; auto.
Qed.
End Keep.

(* ------------------------------------------------------------------ creation *)
Definition silent (i : info) (nd : string * Z) : string * (Z * list frame) := (fst nd, (snd nd, zrep (sim_buffer i + sim_chunk_size i) (zeros (snd nd)))).
Lemma create_all i l : forall s, NoDup (dkeys s) ->
  (NoDup (dkeys s ++ map fst l) -> foldM (fun s nd => create_signal i s (fst nd) (snd nd)) s l = Ok (s ++ map (silent i) l)) /\
  (~ NoDup (dkeys s ++ map fst l) -> foldM (fun s nd => create_signal i s (fst nd) (snd nd)) s l = Err AssertionError).
Proof.
  induction l as [|(k, d) l IH]; intros s ND; cbn [foldM map fst snd].
  - rewrite !app_nil_r. split; auto. contradiction.
  - unfold create_signal at 1 3. unfold dmem. destruct (dget s k) as [x|] eqn:G.
    + assert (I : In k (dkeys s)). { apply dget_In' in G. apply (in_map fst) in G. exact G. } split; auto. intros Q. exfalso. apply NoDup_remove_2 in Q. apply Q. apply in_or_app. auto.
    + assert (I : ~ In k (dkeys s)) by (apply dget_None; auto). cbn [negb passert bind]. rewrite dset_new by auto. change (sim_buffer i + sim_chunk_size i) with (sim_buffer i + sim_chunk_size i). destruct (IH (s ++ [silent i (k, d)])) as (A & B).
      { unfold dkeys. rewrite map_app. cbn. apply (Permutation.Permutation_NoDup (l := k :: map fst s)); [apply Permutation.Permutation_cons_append|]. constructor; auto. }
      assert (Q : dkeys (s ++ [silent i (k, d)]) ++ map fst l = dkeys s ++ k :: map fst l). { unfold dkeys. rewrite map_app. cbn. rewrite <- app_assoc. reflexivity. } rewrite Q in A, B.
      split; intros H; [etransitivity; [exact (A H)|]; rewrite <- app_assoc; reflexivity|exact (B H)].
Qed.

Lemma arrays_created i (c : coll E) : coll_ok c -> foldM (fun s kv => create_signal i s (a_name (snd kv)) (a_num (snd kv))) [] (c_arrays c) = Ok (map (silent i) (array_signals c)).
Proof.
  intros O. transitivity (foldM (fun s nd => create_signal i s (fst nd) (snd nd)) [] (array_signals c)). { unfold array_signals. rewrite foldM_map. reflexivity. }
  apply (@create_all i (array_signals c) []); [constructor|]. cbn [dkeys map app]. unfold array_signals. rewrite map_map. cbn [fst]. replace (map (fun kv => a_name (snd kv)) (c_arrays c)) with (dkeys (c_arrays c)); [apply (ok_names O)|].
  unfold dkeys. apply map_ext_in. intros (k, a) H. cbn. symmetry. apply (ok_key O). apply In_dget; auto. apply (ok_names O).
Qed.
Lemma keys_silent i l : dkeys (map (silent i) l) = map fst l.
Proof. unfold dkeys. rewrite map_map. reflexivity. Qed.
Lemma shape_silent i l : map (fun kv => (fst kv, fst (snd kv))) (map (silent i) l) = l.
Proof. induction l as [|(k, d) r IH]; auto. cbn [map silent fst snd]. rewrite IH. reflexivity. Qed.
Lemma names_nodup (c : coll E) : coll_ok c -> NoDup (map fst (array_signals c)).
Proof.
  intros O. unfold array_signals. rewrite map_map. cbn [fst]. replace (map (fun kv => a_name (snd kv)) (c_arrays c)) with (dkeys (c_arrays c)); [apply (ok_names O)|].
  unfold dkeys. apply map_ext_in. intros (k, a) H. cbn. symmetry. apply (ok_key O). apply In_dget; auto. apply (ok_names O).
Qed.
Lemma pairs_prod (c : coll E) : pair_signals c = map (fun sm => (contrib (a_name (fst sm)) (a_name (snd sm)), a_num (snd sm))) (list_prod (filter is_source (map snd (c_arrays c))) (filter is_mic (map snd (c_arrays c)))).
Proof. unfold pair_signals. induction (filter is_source _) as [|s l IH]; auto. cbn [flat_map list_prod]. rewrite map_app, <- IH, map_map. reflexivity. Qed.
Lemma init_created i (c : coll E) : coll_ok c -> let l := array_signals c ++ (if save_source_contributions i then pair_signals c else []) in
  (NoDup (map fst l) -> signals_init i c = Ok (map (silent i) l)) /\ (~ NoDup (map fst l) -> signals_init i c = Err AssertionError).
Proof.
  intros O l. subst l. unfold signals_init. rewrite (arrays_created i O). cbn [bind]. destruct (save_source_contributions i).
  - rewrite (combos_eq O). cbn [bind]. destruct (@create_all i (pair_signals c) (map (silent i) (array_signals c))) as (A & B). { rewrite keys_silent. apply names_nodup; auto. }
    rewrite keys_silent, <- map_app in A, B. rewrite <- map_app in A. assert (Q : foldM (fun s nd => create_signal i s (fst nd) (snd nd)) (map (silent i) (array_signals c)) (pair_signals c) = foldM (fun s sm => create_signal i s (contrib (a_name (fst sm)) (a_name (snd sm))) (a_num (snd sm))) (map (silent i) (array_signals c)) (list_prod (filter is_source (map snd (c_arrays c))) (filter is_mic (map snd (c_arrays c))))). { rewrite pairs_prod, foldM_map. reflexivity. }
    rewrite Q in A, B. split; auto.
  - rewrite app_nil_r. split; auto. intros H. exfalso. apply H. apply names_nodup; auto.
Qed.
Lemma NoDup_app_l {A} (l r : list A) : NoDup (l ++ r) -> NoDup l.
Proof. induction l as [|x l IH]; intros H; [constructor|]. inversion H; subst. constructor; auto. intros I. apply H2. apply in_or_app. auto. Qed.
Lemma all_created i (c : coll E) procs : coll_ok c -> let l := expected_signals (save_source_contributions i) c procs in
  (NoDup (map fst l) -> all_signals i c procs = Ok (map (silent i) l)) /\ (~ NoDup (map fst l) -> all_signals i c procs = Err AssertionError).
Proof.
  intros O l. subst l. unfold expected_signals. cbv zeta. set (known := array_signals c ++ _). unfold all_signals. destruct (init_created i O) as (A & B). cbv zeta in A, B. fold known in A, B.
  destruct (ListDec.NoDup_dec string_dec (map fst known)) as [D0|D0].
  2:{ rewrite (B D0). split; auto. rewrite map_app. intros H. apply NoDup_app_l in H. contradiction. }
  rewrite (A D0). cbn [bind]. destruct procs as [|p r]; cbn [new_signals]; [rewrite app_nil_r; split; auto; contradiction|].
  assert (F : filter (fun nd => negb (dmem (map (silent i) known) (fst nd))) (pr_locals p) = filter (fun nd => if in_dec string_dec (fst nd) (map fst known) then false else true) (pr_locals p)).
  { apply filter_ext. intros (k, d). cbn [fst]. destruct (in_dec string_dec k (map fst known)) as [I|I]; rewrite <- (keys_silent i) in I.
    - apply dmem_spec in I. rewrite I. auto. - destruct (dmem _ k) eqn:Q; auto. apply dmem_spec in Q. contradiction. }
  rewrite F. destruct (@create_all i (new_signals known (p :: r)) (map (silent i) known)) as (A' & B'). { rewrite keys_silent. auto. } rewrite keys_silent, <- map_app in A', B'. rewrite <- map_app in A'. split; auto.
Qed.
Lemma loop_keeps i mbs ds fuel : 0 < sim_buffer i -> 0 <= sim_chunk_size i -> forall st st', regular (sim_buffer i + sim_chunk_size i) ds (sm_sigs st) -> sim_loop i mbs fuel st = Ok st' -> regular (sim_buffer i + sim_chunk_size i) ds (sm_sigs st').
Proof.
  intros HB HC. induction fuel as [|k IH]; intros st st' R H; cbn [sim_loop] in H; destruct (sm_n st <? tot_samples i + mbs); try discriminate; try (injection H as <-; auto).
  apply bind_ok in H as (st1 & H1 & H). apply (IH st1); auto. exact (@step_keeps _ ds i mbs st st1 eq_refl HB HC R H1).
Qed.
(** the state after [n] passes of the main loop *)
Fixpoint after_steps (i : info) (mbs : Z) (n : nat) (st : sim) : res sim :=
  match n with O => Ok st | Datatypes.S k => st' <- sim_step i mbs st ;; after_steps i mbs k st' end.
Lemma prepared i (c : coll E) procs diags st : coll_ok c -> 0 < sim_buffer i -> 0 <= sim_chunk_size i -> prepare_simulation i c procs diags = Ok st ->
  regular (sim_buffer i + sim_chunk_size i) (expected_signals (save_source_contributions i) c procs) (sm_sigs st) /\ NoDup (map fst (expected_signals (save_source_contributions i) c procs)).
Proof.
  intros O HB HC H0. unfold prepare_simulation in H0. destruct (1 <? zlen procs); [discriminate|].
  assert (H0' : (s <- all_signals i c procs ;; fs <- filters_init c ;; csf <- prop_prepare i c s fs ;; let '(c, s, fs) := csf in Ok (mkSim c s (sim_buffer i) fs procs diags [] 0)) = Ok st). { unfold all_signals. destruct (signals_init i c); exact H0. }
  clear H0. destruct (all_created i procs O) as (A & B). cbv zeta in A, B. set (l := expected_signals _ c procs) in *. destruct (ListDec.NoDup_dec string_dec (map fst l)) as [D0|D0]; [|rewrite (B D0) in H0'; discriminate].
  rewrite (A D0) in H0'. cbn [bind] in H0'. apply bind_ok in H0' as (fs & _ & H0). apply bind_ok in H0 as (((c1 & s1) & fs1) & Hp & H0). injection H0 as <-. cbn [sm_sigs].
  assert (R0 : regular (sim_buffer i + sim_chunk_size i) l (map (silent i) l)).
  { split; [apply shape_silent|]. intros name dim buf I. apply in_map_iff in I as ((k & w) & I & _). unfold silent in I. cbn [fst snd] in I. injection I as -> -> <-. split; [rewrite zlen_zrep; lia|]. intros f If. unfold zrep in If at 1. apply repeat_spec in If. subst. apply zlen_zeros. }
  split; auto. unfold prop_prepare in Hp. cbv zeta in Hp. apply bind_ok in Hp as ((c2 & s2) & H3 & Hp). apply free_keeps with (N := sim_buffer i + sim_chunk_size i) (ds := l) in H3; auto. apply bind_ok in Hp as (combos & _ & Hp). apply bind_ok in Hp as (fss & H4 & Hp). apply pair_keeps with (N := sim_buffer i + sim_chunk_size i) (ds := l) in H4; auto. injection Hp as _ <- _. auto.
Qed.
(** C102: after every pass of the main loop a simulation has exactly the expected signals, in order and with distinct names; each of them has
    sim_buffer + sim_chunk_size samples of its number of channels. *)
Theorem C102_signals i (c : coll E) procs diags mbs n st0 st : coll_ok c -> 0 < sim_buffer i -> 0 <= sim_chunk_size i -> prepare_simulation i c procs diags = Ok st0 -> after_steps i mbs n st0 = Ok st ->
  regular (sim_buffer i + sim_chunk_size i) (expected_signals (save_source_contributions i) c procs) (sm_sigs st) /\ NoDup (map fst (sm_sigs st)).
Proof.
  intros O HB HC H H1. destruct (prepared _ _ _ O HB HC H) as (R & ND). clear H. set (l := expected_signals _ c procs) in *.
  assert (R2 : regular (sim_buffer i + sim_chunk_size i) l (sm_sigs st)).
  { revert st0 R H1. induction n as [|n IH]; intros st0 R H1; cbn [after_steps] in H1; [injection H1 as <-; auto|]. apply bind_ok in H1 as (st1 & Hs & H1). apply (IH st1); auto. exact (@step_keeps _ l i mbs st0 st1 eq_refl HB HC R Hs). }
  split; auto. destruct R2 as (R2 & _). replace (map fst (sm_sigs st)) with (map fst l); auto. rewrite <- R2, map_map. reflexivity.
Qed.
(** C102: so has the state in which a run ends *)
Theorem C102_end i (c : coll E) procs diags st : coll_ok c -> 0 < sim_buffer i -> 0 <= sim_chunk_size i -> run_simulation i c procs diags = Ok st ->
  regular (sim_buffer i + sim_chunk_size i) (expected_signals (save_source_contributions i) c procs) (sm_sigs st).
Proof.
  intros O HB HC H. unfold run_simulation in H. apply bind_ok in H as (st0 & H0 & H). cbv zeta in H. apply bind_ok in H as (st1 & H1 & H). apply bind_ok in H as (q & _ & H). injection H as <-. cbn [sm_sigs].
  destruct (prepared _ _ _ O HB HC H0) as (R & _). exact (@loop_keeps i _ _ _ HB HC st0 st1 R H1).
Qed.
(** C102: if two pairs of arrays, or a pair and an array, give the same name, the simulation refuses to start *)
Theorem C102_clash i (c : coll E) procs diags : coll_ok c -> zlen procs <= 1 -> ~ NoDup (map fst (expected_signals (save_source_contributions i) c procs)) ->
  run_simulation i c procs diags = Err AssertionError.
Proof.
  intros O L D0. unfold run_simulation, prepare_simulation. destruct (Z.ltb_spec 1 (zlen procs)); [lia|]. destruct (all_created i procs O) as (_ & B). cbv zeta in B. specialize (B D0). unfold all_signals in B.
  destruct (signals_init i c) as [s|e]; cbn [bind] in *; [|congruence]. destruct procs as [|p r]; [discriminate|]. match type of B with ?x = _ => match goal with |- context [bind (bind ?y _) _] => change y with x end end. rewrite B. reflexivity.
Qed.
(** C102: more than one processor is refused *)
Theorem C102_one_processor i (c : coll E) procs diags : 1 < zlen procs -> run_simulation i c procs diags = Err NotImplementedError.
Proof. intros L. unfold run_simulation, prepare_simulation. destruct (Z.ltb_spec 1 (zlen procs)); [reflexivity|lia]. Qed.
End Signals.

(* ------------------------------------------------------------------ examples *)
Require Import Verif.ArrayPaths Verif.Demo Verif.DemoRun Verif.DemoSpy Verif.SignalProps Verif.SaveProps Verif.RunSpec Verif.ContribProps.
Local Open Scope string_scope.
Local Open Scope list_scope.
(** a processor with a signal of its own and one named like an array *)
Definition i1 : info := run_info 10 5 false true.
Definition own (bs h : Z) : proc := let p := echo bs h in mkProc (pr_bs p) (pr_hist p) [("own", 2); ("mic", 7)] (pr_step p) (pr_state p).
Example C102_example : exists c st, coll_ok c /\ run_simulation i1 c [own 3 5] [] = Ok st /\
  expected_signals (save_source_contributions i1) c [own 3 5] = [("mic", 1); ("src", 1); ("spk", 1); ("src~mic", 1); ("spk~mic", 1); ("own", 2)] /\
  map (fun kv => (fst kv, fst (snd kv))) (sm_sigs st) = [("mic", 1); ("src", 1); ("spk", 1); ("src~mic", 1); ("spk~mic", 1); ("own", 2)].
Proof.
  destruct (@bind_is_ok _ _ (coll_of i1 (room None)) (fun c => run_simulation i1 c [own 3 5] [])) as (c & st & Hc & H); [vm_compute; reflexivity|].
  assert (O : coll_ok c) by (exact (built_ok (coll_of_built _ _ _ (room_sized None) Hc))). pose proof (coll_is _ _ (fun c => expected_signals (save_source_contributions i1) c [own 3 5]) Hc (ltac:(vm_compute; reflexivity))) as Q. cbv beta in Q.
  exists c, st. split; [exact O|]. split; [exact H|]. split; [exact Q|]. assert (B1 : (0 < sim_buffer i1)%Z) by reflexivity. assert (B2 : (0 <= sim_chunk_size i1)%Z) by (vm_compute; discriminate). destruct (C102_end _ _ _ O B1 B2 H) as (R & _). rewrite R. exact Q.
Qed.
(** two pairs of arrays whose contributions have the same name *)
Definition clashing : list (arr Pos Src) := [one "b~c" KMic 0 None; one "c" KMic 1 None; one "a" KFree 2 None; one "a~b" KFree 2 None].
Example C102_clash_example : exists c, coll_of i1 clashing = Ok c /\
  forall diags, run_simulation i1 c [echo 3 5] diags = Err AssertionError.
Proof.
  assert (H : is_ok (coll_of i1 clashing) = true) by (vm_compute; reflexivity). apply is_ok_ex in H as (c & Hc). exists c. split; [exact Hc|]. intros diags.
  assert (O : coll_ok c). { assert (F : Forall (sized (fun _ => 1%Z)) clashing) by (unfold clashing; repeat (apply Forall_cons; [repeat split|]); constructor). exact (built_ok (coll_of_built _ _ _ F Hc)). }
  pose proof (coll_is _ _ (fun c => map fst (expected_signals (save_source_contributions i1) c [echo 3 5])) Hc (ltac:(vm_compute; reflexivity))) as Q. cbv beta in Q. clear Hc.
  apply C102_clash; [exact O|vm_compute; discriminate|]. rewrite Q. intros N. apply (NoDup_nth_error _) with (i := 4%nat) (j := 7%nat) in N; [discriminate N|cbn; lia|reflexivity].
Qed.
Print Assumptions C102_signals.
Print Assumptions C102_end.
Print Assumptions C102_clash.
Print Assumptions C102_one_processor.
