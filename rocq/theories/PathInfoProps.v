(** C143: what metadata_paths.json says. *)
Require Import Verif.PyBase Verif.PyLemmas Verif.ConfigModel Verif.ArrayModel Verif.ArraySpec Verif.ArrayProofs Verif.ArrayPaths Verif.MetaModel Verif.MetaProps Verif.PathInfoModel Verif.Demo Verif.ArrayProps.
Require Import Coq.Strings.Ascii.
Set Implicit Arguments.
Local Open Scope string_scope.

(* ------------------------------------------------------------------ specification *)
(** a name without the character ">" *)
Definition plain (s : string) : Prop := ~ In ">"%char (list_ascii_of_string s).

(* ------------------------------------------------------------------ proofs *)
Section Proofs.
Context {E : AEnv} {F : Type}.
Variable ism_info : rirpar -> G -> Pos -> Pos -> list (string * pyval F).
Notation arr := (arr Pos Src).
Notation coll := (coll E).
Notation pinfo := (dict (dict (pyval F))).

Lemma dset_twice {A} (d : dict A) k x y : dset (dset d k x) k y = dset d k y.
Proof. induction d as [|[k' v] r IH]; cbn; [rewrite String.eqb_refl; reflexivity|]. destruct (String.eqb_spec k k'); cbn. - subst. rewrite String.eqb_refl. reflexivity. - destruct (String.eqb_spec k k'); [contradiction|]. rewrite IH. reflexivity. Qed.
Lemma arrow_plain s m s' m' : plain s -> plain s' -> s ++ "->" ++ m = s' ++ "->" ++ m' -> s = s' /\ m = m'.
Proof.
  revert s'. induction s as [|x s IH]; intros s' P P' H.
  - destruct s' as [|y s']; cbn in H; [injection H as H; auto|]. injection H as Hy H. destruct s' as [|z s']; cbn in H; [discriminate|]. injection H as Hz H. subst. destruct P'. cbn. auto.
  - destruct s' as [|y s']; cbn in H.
    + injection H as Hy H. destruct s as [|z s]; cbn in H; [discriminate|]. injection H as Hz H. subst. destruct P. cbn. auto.
    + injection H as -> H. destruct (IH s') as [-> ->]; auto; intros I; [apply P|apply P']; cbn; auto.
Qed.
Definition typ (c : coll) (sm : arr * arr) : res string := if ((a_num (fst sm) =? 0) || (a_num (snd sm) =? 0))%Z then Ok "none" else dget2E (c_ptypes c) (a_name (fst sm)) (a_name (snd sm)).
Definition entry i g (sm : arr * arr) t : dict (pyval F) := ("type", PStr t) :: create_info ism_info i g (fst sm) (snd sm) t.
Lemma one_step i c d sm : match setup_one_info ism_info i (c, d) sm with
  | Ok (c', d') => setup_one i c sm = Ok c' /\ c_ptypes c' = c_ptypes c /\ exists t, typ c sm = Ok t /\ d' = dset d (path_key (fst sm) (snd sm)) (entry i (c_rng c) sm t)
  | Err e => setup_one i c sm = Err e end.
Proof.
  unfold setup_one_info, setup_one, typ, entry. destruct (if ((a_num (fst sm) =? 0) || (a_num (snd sm) =? 0))%Z then Ok "none" else dget2E (c_ptypes c) (a_name (fst sm)) (a_name (snd sm))) as [rv|e]; cbn [bind]; [|reflexivity].
  unfold dset2 at 1. unfold dgetE at 1. rewrite dget_dset_same. cbn [bind dset]. rewrite dset_twice.
  destruct (String.eqb_spec rv "modified") as [->|N]; cbn [negb]. { split; auto. split; auto. exists "modified". split; reflexivity. }
  destruct (create_path i (c_rng c) (fst sm) (snd sm) rv) as [gp|e]; cbn [bind]; [|reflexivity]. destruct (dset2 (c_paths c) (a_name (fst sm)) (a_name (snd sm)) (snd gp)) as [ps|e]; cbn [bind]; [|reflexivity].
  unfold create_info. destruct (String.eqb rv "ism") eqn:Q; cbn [foldM bind fst snd].
  - unfold dset2. unfold dgetE. rewrite dget_dset_same. cbn [bind dset String.eqb Ascii.eqb Bool.eqb]. rewrite dset_twice. split; auto. split; auto. exists rv. rewrite Q. split; reflexivity.
  - split; auto. split; auto. exists rv. rewrite Q. split; reflexivity.
Qed.
Lemma all_steps i : forall l c d, match foldM (setup_one_info ism_info i) (c, d) l with
  | Ok (c', d') => foldM (setup_one i) c l = Ok c' /\ exists es, d' = fold_left (fun d ke => dset d (fst ke) (snd ke)) es d /\
      Forall2 (fun sm ke => fst ke = path_key (fst sm) (snd sm) /\ exists t g, typ c sm = Ok t /\ snd ke = entry i g sm t) l es
  | Err e => foldM (setup_one i) c l = Err e end.
Proof.
  induction l as [|sm l IH]; intros c d; cbn [foldM]. { split; auto. exists []. split; [reflexivity|constructor]. }
  pose proof (one_step i c d sm) as S. destruct (setup_one_info ism_info i (c, d) sm) as [[c1 d1]|e]; cbn [bind]; [|rewrite S; reflexivity]. destruct S as (S1 & S2 & t & S3 & S4). rewrite S1. cbn [bind].
  specialize (IH c1 d1). destruct (foldM (setup_one_info ism_info i) (c1, d1) l) as [[c2 d2]|e]; [|exact IH]. destruct IH as (I1 & es & I2 & I3). split; auto. exists ((path_key (fst sm) (snd sm), entry i (c_rng c) sm t) :: es). split.
  - cbn [fold_left fst snd]. rewrite <- S4. exact I2.
  - constructor; [cbn [fst snd]; split; eauto|]. assert (T : forall x, typ c1 x = typ c x) by (intros; unfold typ; rewrite S2; reflexivity). clear - I3 T. induction I3 as [|x y l l' [A (t' & g & B & C)] I3 IH]; constructor; auto. split; auto. exists t', g. rewrite <- T. auto.
Qed.
Lemma fold_new {A} : forall (es d : dict A), NoDup (dkeys d ++ dkeys es) -> fold_left (fun d ke => dset d (fst ke) (snd ke)) es d = (d ++ es)%list.
Proof.
  induction es as [|[k e] es IH]; intros d N; cbn [fold_left fst snd]; [rewrite app_nil_r; reflexivity|]. assert (Q : dget d k = None).
  { destruct (dget d k) as [x|] eqn:Q; auto. apply dget_In in Q. apply (in_map fst) in Q. cbn in N. apply NoDup_remove_2 in N. destruct N. apply in_or_app. left. exact Q. }
  rewrite dset_new by exact Q. rewrite IH. - rewrite <- app_assoc. reflexivity. - unfold dkeys in *. rewrite map_app, <- app_assoc. exact N.
Qed.
Lemma fold_get {A} : forall (es d : dict A) k, NoDup (dkeys es) -> dget (fold_left (fun d ke => dset d (fst ke) (snd ke)) es d) k = match dget es k with Some e => Some e | None => dget d k end.
Proof.
  induction es as [|[n e] es IH]; intros d k N; cbn [fold_left fst snd]; [reflexivity|]. cbn in N. inversion N as [|? ? N1 N2]; subst. rewrite IH by exact N2. cbn [dget]. rewrite dget_dset. destruct (String.eqb_spec k n) as [->|X].
  - destruct (dget es n) as [x|] eqn:Q; [|reflexivity]. apply dget_In in Q. apply (in_map fst) in Q. contradiction.
  - reflexivity.
Qed.
Lemma filled (c : coll) i c' d0 d : coll_ok c -> (forall s, In s (c_src c) -> plain s) -> setup_ir_info ism_info c d0 i = Ok (c', d) -> exists cs es, mic_src_combos c = Ok cs /\ dkeys es = map (fun sm => fst sm ++ "->" ++ snd sm) (list_prod (c_src c) (c_mic c)) /\ NoDup (dkeys es) /\
  Forall (fun sm => a_num (fst sm) <> 0 /\ a_num (snd sm) <> 0)%Z cs /\
  Forall2 (fun sm ke => fst ke = path_key (fst sm) (snd sm) /\ exists t g, typ c sm = Ok t /\ snd ke = entry i g sm t) cs es /\
  d = fold_left (fun d ke => dset d (fst ke) (snd ke)) es d0.
Proof.
  intros O P H. unfold setup_ir_info in H. apply bind_ok in H as (u & Hu & H). apply bind_ok in H as (cs & Hc & H). assert (Hc' : mic_src_combos c = Ok cs) by exact Hc.
  pose proof (all_steps i cs (set_info c i) d0) as S. rewrite H in S. destruct S as (_ & es & S1 & S2). exists cs, es. split; [exact Hc'|]. destruct (combos_names O Hc') as [HN _].
  assert (K : dkeys es = map (fun sm => fst sm ++ "->" ++ snd sm) (list_prod (c_src c) (c_mic c))). { rewrite <- HN, map_map. clear - S2. unfold dkeys. induction S2 as [|x y l l' [A _] S IH]; cbn; [reflexivity|]. rewrite IH, A. reflexivity. }
  assert (N : NoDup (dkeys es)).
  { rewrite K. pose proof (NoDup_list_prod (NoDup_src O) (NoDup_mic O)) as N. assert (PL : forall x, In x (list_prod (c_src c) (c_mic c)) -> plain (fst x)) by (intros [s m] I; apply in_prod_iff in I; apply P; tauto).
    revert N PL. generalize (list_prod (c_src c) (c_mic c)). induction l as [|x l IH]; intros N PL; cbn; constructor; inversion N as [|? ? N1 N2]; subst.
    - intros I. apply in_map_iff in I as (y & Ey & I). apply arrow_plain in Ey as [E1 E2]; [|apply PL; right; auto|apply PL; left; auto]. destruct x, y; cbn in *; subst. contradiction.
    - apply IH; auto. intros y I. apply PL. right. auto. }
  split; [exact K|]. split; [exact N|]. split; [|split; [exact S2|exact S1]].
  unfold calc_rir_parameters in Hu. rewrite Hc in Hu. cbn [bind] in Hu. destruct u. apply calc_rir_nonempty in Hu. exact Hu.
Qed.
(** C143.  Keeping the figures changes nothing else: setup_ir does what it does without them. *)
Theorem C143_same (c : coll) d i : match setup_ir_info ism_info c d i with Ok (c', _) => setup_ir c i = Ok c' | Err e => setup_ir c i = Err e end.
Proof.
  unfold setup_ir_info, setup_ir. destruct (calc_rir_parameters (set_info c i)) as [u|e]; cbn [bind]; [|reflexivity]. destruct (mic_src_combos (set_info c i)) as [cs|e]; cbn [bind]; [|reflexivity].
  pose proof (all_steps i cs (set_info c i) d) as S. destruct (foldM (setup_one_info ism_info i) (set_info c i, d) cs) as [[c' d']|e]; [exact (proj1 S)|exact S].
Qed.
(** C143.  Source names without ">": afterwards the dictionary has an entry for each pair of a source and a microphone array under the names with an arrow between them.
    The entry holds the type of the path, for paths of the image source method the figures of exactly these two arrays, and nothing else.  What an earlier setup left
    for these pairs is gone, other entries are as before.  A dictionary that was empty has no other entries, and they come in the order of the pairs. *)
Theorem C143_entries_partial (Q : arr -> Prop) (c : coll) i c' d0 d : built Q c -> (forall s, In s (c_src c) -> plain s) -> setup_ir_info ism_info c d0 i = Ok (c', d) ->
  (forall s m a b, In s (c_src c) -> In m (c_mic c) -> dget (c_arrays c) s = Some a -> dget (c_arrays c) m = Some b -> exists t g, lookup2 (c_ptypes c) s m = Some t /\
    dget d (s ++ "->" ++ m) = Some (("type", PStr t) :: if String.eqb t "ism" then [("ism_info", PDict (ism_info (rir_params i) g (a_pos a) (a_pos b)))] else [])) /\
  (forall k, (forall s m, In s (c_src c) -> In m (c_mic c) -> k <> s ++ "->" ++ m) -> dget d k = dget d0 k) /\
  (d0 = [] -> dkeys d = map (fun sm => fst sm ++ "->" ++ snd sm) (list_prod (c_src c) (c_mic c)) /\ NoDup (dkeys d)).
Proof.
  intros B P H. pose proof (built_ok B) as O. destruct (filled i d0 O P H) as (cs & es & Hc & K & N & NZ & S & D). split; [|split].
  - intros s m a b Is Im Ha Hb. destruct (combos_names O Hc) as [_ HC].
    assert (Ea : a_name a = s) by (apply (ok_key O); auto). assert (Eb : a_name b = m) by (apply (ok_key O); auto). subst s m.
    assert (I : In (a, b) cs). { apply HC. repeat split; auto; [apply (src_names _ O) in Is as (x & Hx & Kx)|apply (mic_names _ O) in Im as (x & Hx & Kx)]; unfold the_array in Hx; congruence. }
    rewrite Forall_forall in NZ. destruct (NZ _ I) as [Z1 Z2]. cbn [fst snd] in Z1, Z2.
    assert (X : exists ke, In ke es /\ fst ke = path_key a b /\ exists t g, typ c (a, b) = Ok t /\ snd ke = entry i g (a, b) t).
    { clear - S I. induction S as [|x y l l' R S IH]; [destruct I|]. destruct I as [->|I]; [exists y; split; [left; reflexivity|exact R]|]. destruct (IH I) as (ke & J & R'). exists ke. split; [right; exact J|exact R']. }
    destruct X as ([k e] & J & Ek & t & g & T & Ee). cbn [fst snd] in Ek, Ee. subst k e. exists t, g. split.
    + unfold typ in T. cbn [fst snd] in T. apply Z.eqb_neq in Z1, Z2. rewrite Z1, Z2 in T. cbn [orb] in T. unfold dget2E, dgetE in T. unfold lookup2. destruct (dget (c_ptypes c) (a_name a)) as [x|]; cbn [bind] in T; [|discriminate]. destruct (dget x (a_name b)); [injection T as ->; reflexivity|discriminate].
    + change (a_name a ++ "->" ++ a_name b) with (path_key a b). rewrite D, fold_get by exact N. assert (X : dget es (path_key a b) = Some (entry i g (a, b) t)) by (apply In_dget; auto). rewrite X. reflexivity.
  - intros k NK. rewrite D, fold_get by exact N. destruct (dget es k) as [e|] eqn:X; [|reflexivity]. apply dget_In in X. apply (in_map fst) in X. change (In k (dkeys es)) in X. rewrite K in X. apply in_map_iff in X as ([s m] & <- & X). apply in_prod_iff in X. exfalso. apply (NK s m); tauto.
  - intros ->. rewrite fold_new in D by exact N. cbn in D. subst d. auto.
Qed.
(** C143.  The file holds, in the same order, what the dictionary holds, whenever json can write the figures; when it cannot, writing fails with a TypeError. *)
Theorem C143_file (d : pinfo) : 
  (forall j, save_metadata_paths d = Ok j -> exists o, j = JObj o /\ Forall2 (fun ke kj => fst ke = fst kj /\ exists e, snd kj = JObj e /\ Forall2 (fun a b => fst a = fst b /\ written (snd a) (snd b)) (snd ke) e) d o) /\
  ((forall k e n v, In (k, e) d -> In (n, v) e -> jsonable v) -> exists j, save_metadata_paths d = Ok j) /\
  (forall k e n v, In (k, e) d -> In (n, v) e -> ~ jsonable v -> save_metadata_paths d = Err TypeError).
Proof.
  assert (A : forall j, save_metadata_paths d = Ok j -> exists o, j = JObj o /\ Forall2 (fun ke kj => fst ke = fst kj /\ exists e, snd kj = JObj e /\ Forall2 (fun a b => fst a = fst b /\ written (snd a) (snd b)) (snd ke) e) d o).
  { intros j H. apply dump_sound in H. inversion H as [| | | | | |l o W]; subst. exists o. split; auto. clear H. revert o W. induction d as [|[k e] r IH]; intros o W; inversion W as [|? [k' v] ? ? [W1 W2] W3]; subst; constructor; auto. cbn [fst snd] in *. split; auto. inversion W2; subst. eauto. }
  split; [exact A|]. split.
  - intros J. assert (X : Forall (fun kv : string * pyval F => jsonable (snd kv)) (map (fun ke : string * dict (pyval F) => (fst ke, PDict (snd ke))) d)).
    { apply Forall_forall. intros x I. apply in_map_iff in I as ([k e] & <- & I). cbn [fst snd]. destruct (@jsonable_dict F e) as [e' W]. { apply Forall_forall. intros [n v] I2. eapply J; eauto. } exists (JObj e'). constructor. exact W. }
    destruct (jsonable_dict X) as [o W]. exists (JObj o). apply dump_complete. constructor. exact W.
  - intros k e n v I1 I2 NJ. unfold save_metadata_paths in *. destruct (dump_fails (PDict (map (fun ke : string * dict (pyval F) => (fst ke, PDict (snd ke))) d))) as [[j Hj]|Hj]; [|exact Hj]. exfalso. destruct (A _ Hj) as (o & _ & W). clear A Hj.
    induction W as [|x y l l' (_ & e' & _ & W2) W IH]; [destruct I1|]. destruct I1 as [->|I1]; [|auto]. cbn [snd] in W2. clear - W2 I2 NJ. induction W2 as [|x y l l' [_ W] W2 IH]; [destruct I2|]. destruct I2 as [->|I2]; [|auto]. apply NJ. exists (snd y). exact W.
Qed.
End Proofs.

(* ------------------------------------------------------------------ examples *)
Section Examples.
Existing Instance demo.
Definition figures : rirpar -> @G demo -> @Pos demo -> @Pos demo -> list (string * pyval Z) := fun _ _ p q => [("distance", PFloat (Z.abs (p - q)))].
Unset Implicit Arguments.
Definition clash_arrays : list (arr Pos Src) := [mk "b->c" KMic 0 None; mk "c" KMic 1 None; mk "a" KCtrl 3 None; mk "a->b" KCtrl 5 None].
Definition clash_coll : res (coll demo) := c <- add_all (empty_coll ex_g) clash_arrays ;; c <- set_path_type c "a" "b->c" "none" ;; set_default_path_type c "ism".
(** C143 is false of names with an arrow: here four pairs have three entries, and the entry for the path of type "none" says "ism". *)
Theorem C143_arrow_refuted : exists (c c' : coll demo) d, built (fun _ => True) c /\ setup_ir_info figures c [] demo_info = Ok (c', d) /\
  list_prod (c_src c) (c_mic c) = [("a", "b->c"); ("a", "c"); ("a->b", "b->c"); ("a->b", "c")] /\ map (fun sm => lookup2 (c_ptypes c) (fst sm) (snd sm)) (list_prod (c_src c) (c_mic c)) = [Some "none"; Some "ism"; Some "ism"; Some "ism"] /\
  d = [("a->b->c", [("type", PStr "ism"); ("ism_info", PDict [("distance", PFloat 4%Z)])]); ("a->c", [("type", PStr "ism"); ("ism_info", PDict [("distance", PFloat 2%Z)])]); ("a->b->b->c", [("type", PStr "ism"); ("ism_info", PDict [("distance", PFloat 5%Z)])])].
Proof.
  assert (K : get (c <- clash_coll ;; cd <- setup_ir_info figures c [] demo_info ;; Ok (c, cd)) (fun x => (list_prod (c_src (fst x)) (c_mic (fst x)), map (fun sm => lookup2 (c_ptypes (fst x)) (fst sm) (snd sm)) (list_prod (c_src (fst x)) (c_mic (fst x))), snd (snd x))) = Some
    ([("a", "b->c"); ("a", "c"); ("a->b", "b->c"); ("a->b", "c")], [Some "none"; Some "ism"; Some "ism"; Some "ism"],
     [("a->b->c", [("type", PStr "ism"); ("ism_info", PDict [("distance", PFloat 4%Z)])]); ("a->c", [("type", PStr "ism"); ("ism_info", PDict [("distance", PFloat 2%Z)])]); ("a->b->b->c", [("type", PStr "ism"); ("ism_info", PDict [("distance", PFloat 5%Z)])])])) by (vm_compute; reflexivity).
  apply get_ex in K as ([c [c' d]] & K & K1). apply bind_ok in K as (c0 & Q0 & K). apply bind_ok in K as ([c1 d1] & Q1 & K). injection K as -> -> ->. cbn [fst snd] in K1. injection K1 as K1 K2 K3. exists c, c', d. split; [|auto].
  unfold clash_coll in Q0. apply bind_ok in Q0 as (c1 & Q2 & Q0). apply bind_ok in Q0 as (c2 & Q3 & Q4). eapply built_default; [|exact Q4]. eapply built_type; [|exact Q3]. eapply add_all_built; [|constructor|exact Q2]. repeat constructor.
Qed.
(** the collection of C38 and C39: a path of the user, a path of type "random" and two of the image source method *)
Example C143_example : get (c <- ex_coll ;; setup_ir_info figures c [] demo_info) snd = Some
  [("src->mic1", [("type", PStr "modified")]); ("src->mic2", [("type", PStr "ism"); ("ism_info", PDict [("distance", PFloat 2%Z)])]); ("spk->mic1", [("type", PStr "ism"); ("ism_info", PDict [("distance", PFloat 2%Z)])]); ("spk->mic2", [("type", PStr "random")])].
Proof. vm_compute. reflexivity. Qed.
(** a second setup with another default: the entries of the first are replaced, those of other pairs stay *)
Example C143_again_example : get (c <- add_all (empty_coll ex_g) [mk "mic" KMic 0 None; mk "spk" KCtrl 2 None] ;; c <- set_default_path_type c "none" ;; setup_ir_info figures c [("spk->mic", [("type", PStr "ism"); ("ism_info", PDict [])]); ("old->mic", [("type", PStr "none")])] demo_info) snd =
  Some [("spk->mic", [("type", PStr "none")]); ("old->mic", [("type", PStr "none")])].
Proof. vm_compute. reflexivity. Qed.
Example C143_entries_partial_meets : exists c c' d, built (fun _ => True) c /\ (forall s, In s (c_src c) -> plain s) /\ setup_ir_info figures c [] demo_info = Ok (c', d) /\ c_src c = ["src"; "spk"].
Proof.
  assert (K : get (c <- ex_coll ;; cd <- setup_ir_info figures c [] demo_info ;; Ok (c, cd)) (fun x => c_src (fst x)) = Some ["src"; "spk"]) by (vm_compute; reflexivity).
  apply get_ex in K as ([c [c' d]] & K & K1). apply bind_ok in K as (c0 & Q0 & K). apply bind_ok in K as ([c1 d1] & Q1 & K). injection K as -> -> ->. cbn [fst] in K1. exists c, c', d. split.
  - unfold ex_coll in Q0. apply bind_ok in Q0 as (c1 & Q2 & Q0). apply bind_ok in Q0 as (c2 & Q3 & Q0). apply bind_ok in Q0 as (c3 & Q4 & Q5). eapply built_default; [|exact Q5]. eapply built_type; [|exact Q4]. eapply built_path; [|exact Q3]. eapply add_all_built; [|constructor|exact Q2]. repeat constructor.
  - split; [|auto]. rewrite K1. intros s [<-|[<-|[]]]; cbv; intuition discriminate.
Qed.
Example C143_file_example : save_metadata_paths [("src->mic1", [("type", PStr "modified")]); ("spk->mic1", [("type", PStr "ism"); ("ism_info", PDict [("Max ISM order", PInt 17); ("Energy Absorption", PFloat 3%Z)])])] =
    Ok (JObj [("src->mic1", JObj [("type", JStr "modified")]); ("spk->mic1", JObj [("type", JStr "ism"); ("ism_info", JObj [("Max ISM order", JInt 17); ("Energy Absorption", JFloat 3%Z)])])]) /\
  save_metadata_paths [("src->mic1", [("type", PStr "ism"); ("ism_info", PDict [("Max ISM order", PNpInt (F := Z) 17)])])] = Err TypeError.
Proof. vm_compute. auto. Qed.
End Examples.

Print Assumptions C143_same.
Print Assumptions C143_entries_partial.
Print Assumptions C143_file.
Print Assumptions C143_arrow_refuted.
