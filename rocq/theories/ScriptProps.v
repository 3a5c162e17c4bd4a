(** C118: from the calls of a script to the arrays of a simulator. *)
Require Import Verif.PyBase Verif.PyLemmas Verif.ConfigModel Verif.ArrayModel Verif.ArraySpec Verif.ArrayProofs Verif.ArrayPaths Verif.LoggerModel Verif.SimModel Verif.SimSpec
  Verif.SignalSpec Verif.RunSpec Verif.ScriptModel Verif.MotionProps Verif.Demo Verif.DemoRun.
Set Implicit Arguments.

Section Script.
Context {E : AEnv}.
Notation arr := (arr Pos Src).
Notation coll := (coll E).
Implicit Types c : coll.
Variables (rows : Pos -> Z) (channels : Src -> Z).
Notation do_call := (do_call rows channels).
Notation run_script := (run_script rows channels).
Notation new_array := (new_array rows).

(* ------------------------------------------------------------------ what a script may hand over *)
(** a microphone or source array with as many elements as its position has points, wherever it moves *)
Definition proper_array (a : arr) : Prop := sized rows a /\ (is_mic a = true \/ is_source a = true).
(** a trajectory that does not change its number of points *)
Definition steady (pos : position_arg) : Prop := match pos with Still _ => True | Moving tr => forall t, rows (tr t) = rows (tr 0) end.
Definition proper_call (x : call) : Prop :=
  match x with
  | AddArray a => proper_array a
  | AddArrays c2 => forall k a, In (k, a) (c_arrays c2) -> proper_array a
  | AddFreeSource _ pos _ | AddControllableSource _ pos | AddMics _ pos _ => steady pos
  | SetPath _ _ _ | SetSource _ _ => True
  end.

(* ------------------------------------------------------------------ invariant *)
Record fine c : Prop := { fi_ok : coll_ok c; fi_sized : all_sized rows c; fi_shaped : shaped c; fi_known : paths_known c }.

Lemma new_proper k name pos dirs src : steady pos -> k <> KOther -> proper_array (new_array k name pos dirs src).
Proof.
  intros H K. split; [|unfold is_mic, is_source; cbn; destruct k; auto; contradiction]. unfold sized. cbn. split; auto. intros tr Q t. destruct pos as [p|tr']; [discriminate|]. injection Q as <-. apply H.
Qed.
Lemma fine_empty g : fine (empty_coll g).
Proof. split; [apply empty_coll_ok| | |]; intros ? *; unfold the_array; simpl; try discriminate; tauto. Qed.
Lemma fine_add c a : fine c -> proper_array a -> fine (fst (add_array c a)).
Proof.
  intros [O I1 I2 I3] [S KK]. destruct (add_array c a) as [c' [u|e]] eqn:H0; cbn [fst].
  2:{ unfold add_array in H0. destruct (dmem _ _); [injection H0 as <- <-; split; auto|]. destruct KK as [KK|KK]; rewrite KK in H0; [discriminate|]. destruct (is_mic a); discriminate. }
  destruct (add_array_ok a O H0) as (O' & D & Ha & Hk & Hm & Hs & _ & _ & _ & Lp & _ & Lp0).
  assert (T : forall k b, the_array c' k b -> the_array c k b \/ k = a_name a /\ b = a).
  { unfold the_array. rewrite Ha. intros k b Hb. apply dget_In, in_app_iff in Hb as [Hb|[Hb|[]]].
    - left. apply In_dget; auto. apply (ok_names O).
    - inversion Hb; auto. }
  assert (K : forall s m p, lookup2 (c_paths c') s m = Some p -> In s (c_src c') -> lookup2 (c_paths c) s m = Some p).
  { intros s m p L Is. destruct (string_dec s (a_name a)) as [->|Ns]; [|rewrite Lp in L; auto].
    exfalso. rewrite Hs in Is. apply in_app_iff in Is as [Is|Is].
    - apply (src_names _ O) in Is as (z & Hz & _). unfold the_array in Hz. congruence.
    - destruct (is_source a) eqn:Qs; [|destruct Is]. destruct (Lp0 eq_refl m) as [L' _]. congruence. }
  split; [exact O'| | |].
  + intros k b Hb. apply T in Hb as [Hb|[_ ->]]; auto. apply (I1 k); auto.
  + intros s m p x y L Is Im Tx Ty. apply K in L; auto. destruct (I3 _ _ _ L) as [Is' Im'].
    apply (I2 s m p x y); auto.
    * destruct (T _ _ Tx) as [|[-> _]]; auto. exfalso. apply (src_names _ O) in Is' as (z & Hz & _). unfold the_array in Hz. congruence.
    * destruct (T _ _ Ty) as [|[-> _]]; auto. exfalso. apply (mic_names _ O) in Im' as (z & Hz & _). unfold the_array in Hz. congruence.
  + intros s m p L. destruct (string_dec s (a_name a)) as [->|Ns].
    * destruct (is_source a) eqn:Qs. { destruct (Lp0 eq_refl m) as [L' _]. congruence. }
      exfalso. unfold add_array in H0. rewrite Qs in H0. destruct (dmem _ _); [discriminate|]. destruct (is_mic a); [|discriminate].
      inversion H0; subst. simpl in L. apply I3 in L as [L _]. apply (src_names _ O) in L as (z & Hz & _). unfold the_array in Hz. congruence.
    * rewrite Lp in L by auto. apply I3 in L as [L1 L2]. rewrite Hs, Hm, !in_app_iff; auto.
Qed.
Lemma fine_path c p s m c' : fine c -> set_prop_path c p s m = Ok c' -> fine c'.
Proof.
  intros [O I1 I2 I3] H. apply set_prop_path_ok in H as (Hs & Hm & (a & b & Ta & Tb & E1 & E2) & A & T & _ & Kp & L).
  assert (TA : forall k x, the_array c' k x <-> the_array c k x) by (unfold the_array; rewrite (sa_arrays A); tauto).
  split.
  + eapply same_arrays_ok; eauto. { intros s0 H0. apply Kp. apply (ok_paths O); auto. } intros s0 H0. rewrite T. apply (ok_types O); auto.
  + intros k x Hx. apply TA in Hx. apply (I1 k); auto.
  + intros s' m' p' x y L' Is Im Tx Ty. rewrite L in L'. apply TA in Tx, Ty. rewrite (sa_src A) in Is. rewrite (sa_mic A) in Im.
    destruct (String.eqb_spec s' s), (String.eqb_spec m' m); simpl in L'; subst; try (apply (I2 _ _ _ _ _ L'); auto; fail).
    inversion L'; subst. unfold the_array in *. split; congruence.
  + intros s' m' p' L'. rewrite L in L'. rewrite (sa_src A), (sa_mic A).
    destruct (String.eqb_spec s' s), (String.eqb_spec m' m); simpl in L'; subst; auto; apply (I3 _ _ _ L').
Qed.
Lemma fine_type c t s m c' : fine c -> set_path_type c s m t = Ok c' -> fine c'.
Proof.
  intros [O I1 I2 I3] H. apply set_path_type_ok in H as (_ & _ & A & P & _ & Kt & _). split.
  + eapply same_arrays_ok; eauto. { intros s0 H0. rewrite P. apply (ok_paths O); auto. } intros s0 H0. apply Kt. apply (ok_types O); auto.
  + intros k x Hx. unfold the_array in Hx. rewrite (sa_arrays A) in Hx. apply (I1 k); auto.
  + unfold shaped, the_array in *. rewrite P, (sa_src A), (sa_mic A), (sa_arrays A); auto.
  + unfold paths_known. rewrite P, (sa_src A), (sa_mic A); auto.
Qed.
(** the array with another source *)
Definition sourced (a : arr) (s : option Src) : arr := mkArr (a_name a) (a_kind a) (a_num a) (a_pos a) (a_traj a) (a_dirs a) s (a_time_all a) (a_pos_all a).
Lemma dset_names {A} (d : dict A) k x y (f : A -> bool) : dget d k = Some x -> f y = f x -> map fst (filter (fun kv => f (snd kv)) (dset d k y)) = map fst (filter (fun kv => f (snd kv)) d).
Proof.
  intros H HF. induction d as [|[k0 z] d IH]; [discriminate|]. cbn [dget] in H. cbn [dset]. destruct (String.eqb_spec k k0) as [->|N].
  - injection H as ->. cbn [filter snd]. rewrite HF. destruct (f x); auto.
  - cbn [filter snd]. destruct (f z); cbn [map]; rewrite IH; auto.
Qed.
Lemma set_source_ok c name s c' : do_set_source channels c name s = Ok c' -> exists a, the_array c name a /\ is_free a = true /\ channels s = a_num a /\ c' = set_arrays c (dset (c_arrays c) name (sourced a (Some s))).
Proof.
  unfold do_set_source, dgetE. intros H. destruct (dget (c_arrays c) name) as [a|] eqn:Q; [|discriminate]. cbn [bind] in H. destruct (is_free a) eqn:F; [|discriminate]. unfold passert in H.
  destruct (Z.eqb_spec (channels s) (a_num a)); [|discriminate]. cbn [bind] in H. injection H as <-. exists a. auto.
Qed.
Lemma sourced_array c name a s k b : coll_ok c -> the_array c name a -> the_array (set_arrays c (dset (c_arrays c) name (sourced a s))) k b -> exists b0, the_array c k b0 /\ b = (if String.eqb k name then sourced b0 s else b0).
Proof.
  intros O Ha. unfold the_array. cbn [c_arrays set_arrays]. rewrite dget_dset. destruct (String.eqb_spec k name) as [->|N]; [|eauto]. intros H. injection H as <-. eauto.
Qed.
Lemma fine_source c name s c' : fine c -> do_set_source channels c name s = Ok c' -> fine c'.
Proof.
  intros [O I1 I2 I3] H. apply set_source_ok in H as (a & Ha & F & _ & ->).
  assert (SA : forall k b, the_array (set_arrays c (dset (c_arrays c) name (sourced a (Some s)))) k b -> exists b0, the_array c k b0 /\ a_name b = a_name b0 /\ a_num b = a_num b0 /\ a_pos b = a_pos b0 /\ a_traj b = a_traj b0).
  { intros k b Hb. destruct (sourced_array _ O Ha Hb) as (b0 & H0 & ->). exists b0. split; auto. destruct (String.eqb k name); auto. }
  split.
  - split; cbn [c_arrays c_mic c_src c_free c_paths c_ptypes set_arrays].
    + rewrite (dkeys_dset_mem _ _ _ Ha). apply (ok_names O).
    + intros k b Hb. destruct (SA k b Hb) as (b0 & H0 & -> & _). apply (ok_key O); auto.
    + rewrite (@dset_names _ (c_arrays c) name a _ is_mic Ha); [apply (ok_mic O)|reflexivity].
    + rewrite (@dset_names _ (c_arrays c) name a _ is_source Ha); [apply (ok_src O)|reflexivity].
    + rewrite (@dset_names _ (c_arrays c) name a _ is_free Ha); [apply (ok_free O)|reflexivity].
    + apply (ok_paths O).
    + apply (ok_types O).
  - intros k b Hb. destruct (SA k b Hb) as (b0 & H0 & _ & E1 & E2 & E3). unfold sized. rewrite E1, E2, E3. apply (I1 k); auto.
  - intros s' m p x y L Is Im Tx Ty. destruct (SA _ _ Tx) as (x0 & X0 & _ & -> & _). destruct (SA _ _ Ty) as (y0 & Y0 & _ & -> & _). exact (I2 _ _ _ _ _ L Is Im X0 Y0).
  - exact I3.
Qed.
Lemma each_fine {A} (P : A -> Prop) f l : forall c, (forall c x, fine c -> P x -> fine (fst (f c x))) -> fine c -> Forall P l -> fine (fst (each f c l)).
Proof.
  induction l as [|x r IH]; intros c HF H HP; [exact H|]. inversion HP; subst. cbn [each]. pose proof (HF c x H H2) as Hx. destruct (f c x) as [c1 [u|e]]; cbn [fst] in *; auto.
Qed.
Lemma fine_call c x : fine c -> proper_call x -> fine (fst (do_call c x)).
Proof.
  intros H P. destruct x as [a|c2|name pos s|name pos|name pos dirs|s m p|name s]; cbn [ScriptModel.do_call proper_call] in *.
  - apply fine_add; auto.
  - unfold do_add_arrays. assert (F : fine (fst (each (fun c (kv : string * arr) => add_array c (snd kv)) c (c_arrays c2)))).
    { apply each_fine with (P := fun kv => proper_array (snd kv)); auto. - intros; apply fine_add; auto. - apply Forall_forall. intros [k a] I. eapply P; eauto. }
    destruct (each _ c (c_arrays c2)) as [c1 [u|e]]; cbn [fst] in *; auto.
    apply each_fine with (P := fun _ => True); [|exact F|apply Forall_forall; auto]. intros c3 [s d] H3 _. cbn [fst snd]. apply each_fine with (P := fun _ => True); [|exact H3|apply Forall_forall; auto].
    intros c4 [m t] H4 _. cbn [fst snd]. unfold whole. destruct (set_path_type c4 s m t) as [c5|e] eqn:Q; cbn [fst]; auto. eapply fine_type; eauto.
  - unfold new_free_source. cbn [bind]. unfold passert. destruct (_ =? _); cbn [bind]; [|exact H]. apply fine_add; auto. apply new_proper; auto. discriminate.
  - apply fine_add; auto. apply new_proper; auto. discriminate.
  - apply fine_add; auto. apply new_proper; auto. discriminate.
  - unfold whole. destruct (set_prop_path c p s m) as [c1|e] eqn:Q; cbn [fst]; auto. eapply fine_path; eauto.
  - unfold whole. destruct (do_set_source channels c name s) as [c1|e] eqn:Q; cbn [fst]; auto. eapply fine_source; eauto.
Qed.
Lemma run_cons c x r : run_script c (x :: r) = (fst (run_script (fst (do_call c x)) r), snd (do_call c x) :: snd (run_script (fst (do_call c x)) r)).
Proof. cbn [ScriptModel.run_script]. destruct (do_call c x) as [c1 o]. cbn [fst snd]. destruct (run_script c1 r); auto. Qed.
Lemma fine_script l : forall c, fine c -> Forall proper_call l -> fine (fst (run_script c l)).
Proof.
  induction l as [|x r IH]; intros c H P; [exact H|]. inversion P; subst. rewrite run_cons. cbn [fst]. apply IH; auto. apply fine_call; auto.
Qed.

(* ------------------------------------------------------------------ C118 *)
(** C118: whatever calls a script makes, and whichever of them fail, if a simulator can be made then its arrays and paths are consistent: they meet
    what the claims about simulations assume *)
Theorem C118_consistent {S : SEnv} (l : list call) g c outcomes i c' (procs : list (@proc E S)) : (forall p, 0 <= rows p) -> generators_shaped rows -> Forall proper_call l ->
  run_script (empty_coll g) l = (c, outcomes) -> finish_arrays i c = Ok c' -> supported i procs -> Forall (fun p => forall s w, NoDup (dkeys (snd (pr_step p s w)))) procs ->
  experiment i c' procs.
Proof.
  intros HR HG HP HS HF HU HD. assert (F : fine c) by (pose proof (fine_script (fine_empty g) HP) as F; rewrite HS in F; exact F). destruct F as [O I1 I2 I3].
  unfold finish_arrays in HF. apply bind_ok in HF as (u & _ & HF). apply bind_ok in HF as (c1 & H1 & HF). destruct (set_default_ok _ O H1) as (O1 & A1 & P1 & _).
  assert (S1 : all_sized rows c1) by (intros k x Hx; unfold the_array in Hx; rewrite (sa_arrays A1) in Hx; apply (I1 k); auto).
  assert (Sh1 : shaped c1) by (unfold shaped, the_array in *; rewrite P1, (sa_src A1), (sa_mic A1), (sa_arrays A1); auto).
  destruct (setup_ir_ok _ O1 HF) as (_ & _ & _ & _ & _ & _ & _ & A2 & _ & O2). constructor; auto.
  - exact (@setup_shaped _ rows c1 i c' O1 HG S1 Sh1 HF).
  - intros k a Ha. unfold the_array in Ha. rewrite (sa_arrays A2) in Ha. cbn [set_info c_arrays] in Ha. destruct (S1 k a Ha) as [<- _]. apply HR.
Qed.

(* ------------------------------------------------------------------ what the arrays are *)
(** where an array starts and how it moves *)
Definition start (pos : position_arg) : Pos := match pos with Still p => p | Moving tr => tr 0 end.
Definition motion (pos : position_arg) : option (Z -> Pos) := match pos with Still _ => None | Moving tr => Some tr end.
(** an array without its source *)
Definition fresh (k : kind) (name : string) (pos : position_arg) (dirs : list string) : arr := mkArr name k (rows (start pos)) (start pos) (motion pos) dirs None [] [].
Definition omni (pos : position_arg) : list string := zrep (rows (start pos)) "omni"%string.
(** the arrays a call adds, without their sources *)
Definition added (x : call) : list arr :=
  match x with
  | AddArray a => [sourced a None]
  | AddArrays c2 => map (fun kv => sourced (snd kv) None) (c_arrays c2)
  | AddFreeSource name pos _ => [fresh KFree name pos (omni pos)]
  | AddControllableSource name pos => [fresh KCtrl name pos (omni pos)]
  | AddMics name pos None => [fresh KMic name pos (omni pos)]
  | AddMics name pos (Some dirs) => [fresh KMic name pos dirs]
  | SetPath _ _ _ | SetSource _ _ => []
  end.
(** the sources a call gives to the array named k *)
Definition gives (k : string) (x : call) : list (option Src) :=
  match x with
  | AddArray a => if String.eqb (a_name a) k then [a_source a] else []
  | AddArrays c2 => map (fun kv => a_source (snd kv)) (filter (fun kv => String.eqb (a_name (snd kv)) k) (c_arrays c2))
  | AddFreeSource name _ s | SetSource name s => if String.eqb name k then [Some s] else []
  | AddControllableSource name _ | AddMics name _ _ => if String.eqb name k then [None] else []
  | SetPath _ _ _ => []
  end.
(** the paths a call gives from s to m *)
Definition given (s m : string) (x : call) : list (path V) :=
  match x with SetPath s' m' p => if String.eqb s' s && String.eqb m' m then [p] else [] | _ => [] end.
Definition source_in c (k : string) : option Src := match dget (c_arrays c) k with Some a => a_source a | None => None end.
Definition bare (kv : string * arr) : string * arr := (fst kv, sourced (snd kv) None).
Definition named (a : arr) : string * arr := (a_name a, a).
Definition no_collection (x : call) : Prop := match x with AddArrays _ => False | _ => True end.

Lemma last_default {A} (l : list A) x d d' : last (x :: l) d = last (x :: l) d'.
Proof. revert x. induction l as [|y l IH]; intros x; [reflexivity|]. change (last (y :: l) d = last (y :: l) d'). apply IH. Qed.
Lemma last_app {A} (l1 l2 : list A) d : last (l1 ++ l2) d = last l2 (last l1 d).
Proof.
  revert d. induction l1 as [|x r IH]; intros d; [reflexivity|]. destruct r as [|y r].
  - cbn [app]. destruct l2 as [|z l2]; [reflexivity|]. change (last (z :: l2) d = last (z :: l2) x). apply last_default.
  - change (last ((y :: r) ++ l2) d = last l2 (last (y :: r) d)). apply IH.
Qed.
Record step_facts c c' (arrs : list arr) (src : string -> list (option Src)) (pth : string -> string -> list (path V)) : Prop := {
  sf_arrays : map bare (c_arrays c') = map bare (c_arrays c) ++ map named arrs;
  sf_source : forall k, source_in c' k = last (src k) (source_in c k);
  sf_paths : forall s m, lookup2 (c_paths c') s m = last (map Some (pth s m)) (lookup2 (c_paths c) s m) }.
Lemma add_facts c a c' : fine c -> add_array c a = (c', Ok tt) ->
  step_facts c c' [sourced a None] (fun k => if String.eqb (a_name a) k then [a_source a] else []) (fun _ _ => []) /\ forall s m, lookup2 (c_ptypes c') s m = lookup2 (c_ptypes c) s m \/ s = a_name a.
Proof.
  intros [O I1 I2 I3] H. destruct (add_array_ok a O H) as (O' & D & Ha & Hk & Hm & Hs & _ & _ & _ & Lp & Lt & Lp0). split.
  - split.
    + rewrite Ha, map_app. reflexivity.
    + intros k. unfold source_in. rewrite Ha. destruct (String.eqb_spec (a_name a) k) as [<-|N].
      * cbn [last]. replace (dget (c_arrays c ++ [(a_name a, a)]) (a_name a)) with (Some a); auto. symmetry. rewrite <- Ha. apply In_dget; [apply (ok_names O')|]. rewrite Ha. apply in_app_iff. right. left. auto.
      * cbn [last]. replace (dget (c_arrays c ++ [(a_name a, a)]) k) with (dget (c_arrays c) k); auto. clear -N. induction (c_arrays c) as [|[k0 x] d IH]; cbn [app dget]; [destruct (String.eqb_spec k (a_name a)); congruence|]. destruct (String.eqb k k0); auto.
    + intros s m. cbn [map last]. destruct (string_dec s (a_name a)) as [->|N]; [|apply Lp; auto].
      assert (B : lookup2 (c_paths c) (a_name a) m = None). { destruct (lookup2 (c_paths c) (a_name a) m) as [p|] eqn:Q; auto. apply I3 in Q as [Q _]. apply (src_names _ O) in Q as (z & Hz & _). unfold the_array in Hz. congruence. }
      destruct (is_source a) eqn:Qs; [destruct (Lp0 eq_refl m); congruence|]. unfold add_array in H. rewrite Qs in H. destruct (dmem _ _); [discriminate|]. destruct (is_mic a); [|discriminate]. injection H as <-. reflexivity.
  - intros s m. destruct (string_dec s (a_name a)); auto.
Qed.
Lemma step_trans c c1 c2 a1 a2 s1 s2 p1 p2 : step_facts c c1 a1 s1 p1 -> step_facts c1 c2 a2 s2 p2 -> step_facts c c2 (a1 ++ a2) (fun k => s1 k ++ s2 k) (fun s m => p1 s m ++ p2 s m).
Proof.
  intros [A1 S1 P1] [A2 S2 P2]. split.
  - rewrite A2, A1, map_app, app_assoc. reflexivity.
  - intros k. rewrite S2, S1, last_app. reflexivity.
  - intros s m. rewrite P2, P1, map_app, last_app. reflexivity.
Qed.
Lemma each_add_facts l : forall c c', fine c -> (forall k a, In (k, a) l -> proper_array a) -> each (fun c (kv : string * arr) => add_array c (snd kv)) c l = (c', Ok tt) ->
  fine c' /\ step_facts c c' (map (fun kv => sourced (snd kv) None) l) (fun k => map (fun kv => a_source (snd kv)) (filter (fun kv => String.eqb (a_name (snd kv)) k) l)) (fun _ _ => []).
Proof.
  induction l as [|[k a] r IH]; intros c c' F HP H.
  - cbn [each] in H. injection H as <-. split; auto. split; cbn; auto. rewrite app_nil_r. reflexivity.
  - cbn [each snd] in H. pose proof (fine_add F (HP k a (or_introl eq_refl))) as F1. destruct (add_array c a) as [c1 [[]|e]] eqn:Q; [|discriminate]. cbn [fst] in F1.
    destruct (IH c1 c' F1 (fun k a I => HP k a (or_intror I)) H) as (F2 & S2). split; auto. destruct (add_facts _ F Q) as (S1 & _). pose proof (step_trans S1 S2) as [AA BB CC]. split.
    + rewrite AA. reflexivity.
    + intros k0. rewrite BB. f_equal. cbn [filter snd]. destruct (String.eqb (a_name a) k0); reflexivity.
    + intros s m. rewrite CC. reflexivity.
Qed.
Lemma each_types d : forall c c', each (fun c (sp : string * dict string) => each (fun c mp => whole c (set_path_type c (fst sp) (fst mp) (snd mp))) c (snd sp)) c d = (c', Ok tt) ->
  c_arrays c' = c_arrays c /\ c_paths c' = c_paths c.
Proof.
  assert (I : forall s l c c', each (fun c (mp : string * string) => whole c (set_path_type c s (fst mp) (snd mp))) c l = (c', Ok tt) -> c_arrays c' = c_arrays c /\ c_paths c' = c_paths c).
  { intros s l. induction l as [|[m t] r IH]; intros c c' H; cbn [each] in H; [injection H as <-; auto|]. cbn [fst snd] in H. destruct (set_path_type c s m t) as [c1|e] eqn:Q; cbn [whole] in H; [|discriminate].
    apply set_path_type_ok in Q as (_ & _ & A & P & _). destruct (IH _ _ H) as (X & Y). rewrite X, Y, (sa_arrays A), P. auto. }
  induction d as [|[s l] r IH]; intros c c' H; cbn [each] in H; [injection H as <-; auto|]. cbn [fst snd] in H.
  destruct (each (fun c (mp : string * string) => whole c (set_path_type c s (fst mp) (snd mp))) c l) as [c1 [[]|e]] eqn:Q; [|discriminate]. destruct (I _ _ _ _ Q) as (X & Y). destruct (IH _ _ H) as (X' & Y'). split; congruence.
Qed.
Lemma call_facts c x c' : fine c -> proper_call x -> do_call c x = (c', Ok tt) -> step_facts c c' (added x) (fun k => gives k x) (fun s m => given s m x).
Proof.
  intros F P H. destruct x as [a|c2|name pos s|name pos|name pos dirs|s m p|name s]; cbn [ScriptModel.do_call proper_call added gives given] in *.
  - exact (proj1 (add_facts _ F H)).
  - unfold do_add_arrays in H. destruct (each (fun c (kv : string * arr) => add_array c (snd kv)) c (c_arrays c2)) as [c1 [[]|e]] eqn:Q; [|discriminate]. apply each_types in H as (HA & HP). destruct (each_add_facts _ F P Q) as (_ & [A B C]).
    split; unfold source_in in *; rewrite ?HA, ?HP; auto.
  - unfold new_free_source, passert in H. destruct (_ =? _); cbn [bind] in H; [|discriminate]. pose proof (proj1 (add_facts _ F H)) as [A B C]. split; auto.
  - pose proof (proj1 (add_facts _ F H)) as [A B C]. split; auto.
  - pose proof (proj1 (add_facts _ F H)) as [A B C]. split; auto. destruct dirs; exact A.
  - destruct (set_prop_path c p s m) as [c1|e] eqn:Q; cbn [whole] in H; [|discriminate]. injection H as <-. apply set_prop_path_ok in Q as (_ & _ & _ & A & _ & _ & _ & L). split.
    + rewrite (sa_arrays A), app_nil_r. reflexivity.
    + intros k. unfold source_in. rewrite (sa_arrays A). reflexivity.
    + intros s' m'. rewrite L. rewrite (String.eqb_sym s' s), (String.eqb_sym m' m). destruct (_ && _); reflexivity.
  - destruct (do_set_source channels c name s) as [c1|e] eqn:Q; cbn [whole] in H; [|discriminate]. injection H as <-. apply set_source_ok in Q as (a & Ha & _ & _ & ->). split.
    + cbn [c_arrays set_arrays]. rewrite app_nil_r. unfold the_array in Ha. clear -Ha. induction (c_arrays c) as [|[k x] d IH]; [discriminate|]. cbn [dget] in Ha. cbn [dset]. destruct (String.eqb_spec name k) as [->|N]; [injection Ha as ->; reflexivity|]. cbn [map]. rewrite IH; auto.
    + intros k. unfold source_in. cbn [c_arrays set_arrays]. rewrite dget_dset, String.eqb_sym. destruct (String.eqb name k); reflexivity.
    + intros s' m'. reflexivity.
Qed.
Lemma script_facts l : forall c c' os, fine c -> Forall proper_call l -> run_script c l = (c', os) -> (forall o, In o os -> o = Ok tt) ->
  step_facts c c' (flat_map added l) (fun k => flat_map (gives k) l) (fun s m => flat_map (given s m) l).
Proof.
  induction l as [|x r IH]; intros c c' os F P H HO.
  - cbn in H. injection H as <- <-. split; cbn; auto. rewrite app_nil_r. reflexivity.
  - inversion P; subst. rewrite run_cons in H. destruct (do_call c x) as [c1 o] eqn:Q. cbn [fst snd] in H. destruct (run_script c1 r) as [c2 os2] eqn:R. cbn [fst snd] in H. injection H as <- <-.
    assert (o = Ok tt) by (apply HO; left; auto). subst o. pose proof (fine_call _ F H2) as F1. rewrite Q in F1. cbn [fst] in F1.
    exact (step_trans (call_facts _ F H2 Q) (IH c1 c2 os2 F1 H3 R (fun o I => HO o (or_intror I)))).
Qed.
Lemma finish_facts i c c' : fine c -> finish_arrays i c = Ok c' -> exists c1, coll_ok c1 /\ set_default_path_type c (reverb i) = Ok c1 /\ setup_ir c1 i = Ok c' /\ c_arrays c' = c_arrays c /\ c_src c' = c_src c /\ c_mic c' = c_mic c.
Proof.
  intros [O _ _ _] HF. unfold finish_arrays in HF. apply bind_ok in HF as (u & _ & HF). apply bind_ok in HF as (c1 & H1 & HF). destruct (set_default_ok _ O H1) as (O1 & A1 & _). exists c1. split; auto. split; auto. split; auto.
  destruct (setup_ir_ok _ O1 HF) as (_ & _ & _ & _ & _ & _ & _ & A2 & _ & O2). rewrite (sa_arrays A2), (sa_src A2), (sa_mic A2). cbn [set_info c_arrays c_src c_mic]. rewrite (sa_arrays A1), (sa_src A1), (sa_mic A1). auto.
Qed.

(** C118: if no call fails, the simulator has exactly the arrays that were added, in the order of the calls, where and as they were described; each
    with the source it was given last *)
Theorem C118_arrays l g c outcomes i c' : Forall proper_call l -> run_script (empty_coll g) l = (c, outcomes) -> (forall o, In o outcomes -> o = Ok tt) -> finish_arrays i c = Ok c' ->
  map (fun kv => (fst kv, sourced (snd kv) None)) (c_arrays c') = map (fun a => (a_name a, a)) (flat_map added l) /\
  forall k a, the_array c' k a -> a_source a = last (flat_map (gives k) l) None.
Proof.
  intros P HS HO HF. assert (F : fine c) by (pose proof (fine_script (fine_empty g) P) as F; rewrite HS in F; exact F). destruct (finish_facts _ F HF) as (c1 & _ & _ & _ & HA & _). destruct (script_facts (fine_empty g) P HS HO) as [A B _].
  rewrite HA. split; [exact A|]. intros k a Ha. specialize (B k). cbn [source_in empty_coll c_arrays dget] in B. unfold the_array in Ha. rewrite HA in Ha. unfold source_in in B. rewrite Ha in B. exact B.
Qed.
(** C118: a path is the one given last, or else made as the configuration says *)
Theorem C118_paths l g c outcomes i c' s m a b : Forall proper_call l -> Forall no_collection l -> run_script (empty_coll g) l = (c, outcomes) -> (forall o, In o outcomes -> o = Ok tt) ->
  finish_arrays i c = Ok c' -> reverb i <> "modified"%string -> In s (c_src c') -> In m (c_mic c') -> the_array c' s a -> the_array c' m b ->
  match last (map Some (flat_map (given s m) l)) None with
  | Some p => lookup2 (c_paths c') s m = Some p
  | None => exists g1 g2, made_path i g1 a b (reverb i) g2 (path_of c' s m)
  end.
Proof.
  intros P NC HS HO HF NM Is Im Ta Tb. assert (F : fine c) by (pose proof (fine_script (fine_empty g) P) as F; rewrite HS in F; exact F).
  assert (T0 : forall s m, lookup2 (c_ptypes c) s m = None).
  { assert (K : forall l c c' os, fine c -> Forall proper_call l -> Forall no_collection l -> run_script c l = (c', os) -> (forall o, In o os -> o = Ok tt) -> (forall s m, lookup2 (c_ptypes c) s m = None) -> forall s m, lookup2 (c_ptypes c') s m = None).
    { clear. induction l as [|x r IH]; intros c c' os F P NC H HO Z.
      - cbn in H. injection H as <- <-. exact Z.
      - inversion P; inversion NC; subst. rewrite run_cons in H. destruct (do_call c x) as [c1 o] eqn:Q. cbn [fst snd] in H. destruct (run_script c1 r) as [c2 os2] eqn:R. cbn [fst snd] in H. injection H as <- <-.
        assert (o = Ok tt) by (apply HO; left; auto). subst o. pose proof (fine_call _ F H2) as F1. rewrite Q in F1. cbn [fst] in F1. apply (IH c1 c2 os2); auto; [intros o I; apply HO; right; auto|].
        assert (AD : forall a, add_array c a = (c1, Ok tt) -> forall s m, lookup2 (c_ptypes c1) s m = None).
        { intros a HA s m. destruct (proj2 (add_facts _ F HA) s m) as [->| ->]; auto. destruct (add_array_ok a (fi_ok F) HA) as (_ & D & _ & _ & _ & _ & _ & _ & _ & _ & _ & L0). destruct (is_source a) eqn:Qs; [apply L0; auto|].
          unfold add_array in HA. rewrite Qs in HA. destruct (dmem _ _); [discriminate|]. destruct (is_mic a); [|discriminate]. injection HA as <-. apply Z. }
        destruct x as [a|c3|name pos s|name pos|name pos dirs|s m p|name s]; cbn [ScriptModel.do_call no_collection] in *; try contradiction.
        + eauto.
        + unfold new_free_source, passert in Q. destruct (_ =? _); cbn [bind] in Q; [|discriminate]. eauto.
        + eauto.
        + eauto.
        + destruct (set_prop_path c p s m) as [c4|e] eqn:W; cbn [whole] in Q; [|discriminate]. injection Q as <-. apply set_prop_path_ok in W as (_ & _ & _ & _ & T & _). rewrite T. exact Z.
        + destruct (do_set_source channels c name s) as [c4|e] eqn:W; cbn [whole] in Q; [|discriminate]. injection Q as <-. apply set_source_ok in W as (a & _ & _ & _ & ->). exact Z. }
    apply (K l (empty_coll g) c outcomes); auto. apply fine_empty. }
  destruct (finish_facts _ F HF) as (c1 & O1 & H1 & H2 & HA & Hs & Hm). destruct (script_facts (fine_empty g) P HS HO) as [_ _ HP]. specialize (HP s m). change (lookup2 (c_paths (empty_coll g)) s m) with (@None (path V)) in HP. rewrite <- HP. clear HP.
  destruct (set_default_ok _ (fi_ok F) H1) as (_ & A1 & P1 & _ & T1). rewrite Hs, <- (sa_src A1) in Is. rewrite Hm, <- (sa_mic A1) in Im. unfold the_array in Ta, Tb. rewrite HA, <- (sa_arrays A1) in Ta, Tb.
  specialize (T1 s m). rewrite <- (sa_src A1), <- (sa_mic A1) in T1. rewrite (proj2 (smem_spec _ _) Is), (proj2 (smem_spec _ _) Im) in T1. cbn [andb] in T1. unfold resolved in T1. rewrite T0 in T1.
  destruct (setup_made i O1 H2 Is Im Ta Tb) as [(ty & g1 & g2 & L & M)|[L M]].
  - rewrite T1 in L. injection L as <-. destruct (lookup2 (c_paths c) s m) as [p|] eqn:Q; [exfalso; exact (not_modified M)|eauto].
  - rewrite T1 in L. rewrite P1 in M. destruct (lookup2 (c_paths c) s m) as [p|] eqn:Q; [exact M|]. injection L as L. contradiction.
Qed.
(** C118: a call that fails, other than add_arrays, changes nothing *)
Theorem C118_refused c x c' e : proper_call x -> no_collection x -> do_call c x = (c', Err e) -> c' = c.
Proof.
  intros P NC H. assert (AD : forall a, proper_array a -> add_array c a = (c', Err e) -> c' = c).
  { intros a [_ K] Q. unfold add_array in Q. destruct (dmem _ _); [injection Q as <- <-; auto|]. destruct K as [K|K]; rewrite K in Q; [discriminate|]. destruct (is_mic a); discriminate. }
  destruct x as [a|c3|name pos s|name pos|name pos dirs|s m p|name s]; cbn [ScriptModel.do_call no_collection proper_call] in *; try contradiction.
  - eauto.
  - unfold new_free_source, passert in H. destruct (_ =? _); cbn [bind] in H; [|injection H as <- <-; auto]. eapply AD; [|exact H]. apply new_proper; auto. discriminate.
  - eapply AD; [|exact H]. apply new_proper; auto. discriminate.
  - eapply AD; [|exact H]. apply new_proper; auto. discriminate.
  - destruct (set_prop_path c p s m); cbn [whole] in H; [discriminate|]. injection H as <- <-. auto.
  - destruct (do_set_source channels c name s); cbn [whole] in H; [discriminate|]. injection H as <- <-. auto.
Qed.
(** C118: when the calls fail *)
Theorem C118_errors c : coll_ok c ->
  (forall name pos, In name (dkeys (c_arrays c)) -> (forall dirs, snd (do_call c (AddMics name pos dirs)) = Err AssertionError) /\ snd (do_call c (AddControllableSource name pos)) = Err AssertionError /\
     forall s, snd (do_call c (AddFreeSource name pos s)) = Err AssertionError) /\
  (forall name pos, ~ In name (dkeys (c_arrays c)) -> (forall dirs, snd (do_call c (AddMics name pos dirs)) = Ok tt) /\ snd (do_call c (AddControllableSource name pos)) = Ok tt /\
     forall s, snd (do_call c (AddFreeSource name pos s)) = if channels s =? rows (start pos) then Ok tt else Err AssertionError) /\
  (forall s m p, snd (do_call c (SetPath s m p)) = Ok tt <-> exists a b, In s (c_src c) /\ In m (c_mic c) /\ the_array c s a /\ the_array c m b /\ p_ns p = a_num a /\ p_nm p = a_num b) /\
  (forall s m p, snd (do_call c (SetPath s m p)) = Ok tt \/ snd (do_call c (SetPath s m p)) = Err AssertionError) /\
  (forall name s, snd (do_call c (SetSource name s)) =
     match dget (c_arrays c) name with
     | None => Err KeyError
     | Some a => match a_kind a with KFree => if channels s =? a_num a then Ok tt else Err AssertionError | _ => Err AttributeError end
     end) /\
  (forall i, c_arrays c = [] -> finish_arrays i c = Err AssertionError).
Proof.
  intros O. assert (AD : forall a, is_mic a = true \/ is_source a = true -> snd (add_array c a) = if smem (a_name a) (dkeys (c_arrays c)) then Err AssertionError else Ok tt).
  { intros a K. unfold add_array, dmem. destruct (dget (c_arrays c) (a_name a)) as [x|] eqn:Q.
    - assert (I : In (a_name a) (dkeys (c_arrays c))) by (apply dget_In in Q; apply (in_map fst) in Q; exact Q). rewrite (proj2 (smem_spec _ _) I). reflexivity.
    - assert (I : ~ In (a_name a) (dkeys (c_arrays c))) by (apply dget_None; auto). rewrite (proj2 (smem_false _ _) I). destruct K as [K|K]; rewrite K; [reflexivity|]. destruct (is_mic a); reflexivity. }
  split; [|split; [|split; [|split; [|split; [|intros i Hn; unfold finish_arrays; rewrite Hn; reflexivity]]]]].
  - intros name pos I. apply smem_spec in I. split; [|split].
    + intros dirs. cbn [ScriptModel.do_call]. rewrite AD by (left; reflexivity). cbn [a_name ScriptModel.new_array]. rewrite I. reflexivity.
    + cbn [ScriptModel.do_call]. rewrite AD by (right; reflexivity). cbn [a_name ScriptModel.new_array]. rewrite I. reflexivity.
    + intros s. cbn [ScriptModel.do_call]. unfold new_free_source, passert. destruct (_ =? _); [|reflexivity]. cbn [bind]. rewrite AD by (right; reflexivity). cbn [a_name ScriptModel.new_array]. rewrite I. reflexivity.
  - intros name pos I. apply smem_false in I. split; [|split].
    + intros dirs. cbn [ScriptModel.do_call]. rewrite AD by (left; reflexivity). cbn [a_name ScriptModel.new_array]. rewrite I. reflexivity.
    + cbn [ScriptModel.do_call]. rewrite AD by (right; reflexivity). cbn [a_name ScriptModel.new_array]. rewrite I. reflexivity.
    + intros s. cbn [ScriptModel.do_call]. unfold new_free_source, passert. change (a_num (new_array KFree name pos None (Some s))) with (rows (start pos)). destruct (_ =? _); [|reflexivity]. cbn [bind]. rewrite AD by (right; reflexivity). cbn [a_name ScriptModel.new_array]. rewrite I. reflexivity.
  - intros s m p. cbn [ScriptModel.do_call]. split.
    + intros H. destruct (set_prop_path c p s m) as [c1|e] eqn:Q; [|discriminate]. apply set_prop_path_ok in Q as (A & B & (a & b & T) & _). exists a, b. tauto.
    + intros (a & b & Is & Im & Ta & Tb & E1 & E2). unfold set_prop_path, passert. rewrite (proj2 (smem_spec _ _) Is), (proj2 (smem_spec _ _) Im). cbn [bind]. unfold dgetE. rewrite Ta. cbn [bind]. rewrite E1, Z.eqb_refl. cbn [bind]. rewrite Tb. cbn [bind]. rewrite E2, Z.eqb_refl. cbn [bind].
      unfold dset2, dgetE. destruct (ok_paths O s Is) as (d & ->). reflexivity.
  - intros s m p. cbn [ScriptModel.do_call]. unfold set_prop_path, passert. destruct (smem s (c_src c)) eqn:Is; [|right; reflexivity]. destruct (smem m (c_mic c)) eqn:Im; [|right; reflexivity]. cbn [bind].
    apply smem_spec in Is, Im. destruct (proj1 (src_names s O) Is) as (a & Ta & _). destruct (proj1 (mic_names m O) Im) as (b & Tb & _). unfold dgetE. rewrite Ta. cbn [bind]. destruct (_ =? _); [|right; reflexivity]. cbn [bind]. rewrite Tb. cbn [bind]. destruct (_ =? _); [|right; reflexivity]. cbn [bind].
    unfold dset2, dgetE. destruct (ok_paths O s Is) as (d & ->). left. reflexivity.
  - intros name s. cbn [ScriptModel.do_call]. unfold do_set_source, dgetE. destruct (dget (c_arrays c) name) as [a|]; [|reflexivity]. cbn [bind]. unfold is_free. destruct (a_kind a); try reflexivity. unfold passert. destruct (_ =? _); reflexivity.
Qed.
End Script.

(* ------------------------------------------------------------------ examples *)
Section Examples.
Local Existing Instances demo demo_d demo_s.
Local Open Scope string_scope.
Local Open Scope Z_scope.
Definition one_row (_ : @Pos demo) : Z := 1.
Definition width (s : @Src demo) : Z := if (s : Z) <? 100 then 1 else 2.
Definition own_path : path (@V demo) := mkPath 1 1 2 (fun _ _ k => 7 + k).
(** a moving microphone and a cardioid one, a source whose signal is exchanged, a loudspeaker, paths of our own to the cardioid microphone (C90, C39: others cannot be made) *)
Definition script : list (@call demo) :=
  [AddMics "mic" (Moving (fun t : Z => 3 + t : @Pos demo)) None; AddMics "mic2" (Still (4 : @Pos demo)) (Some ["cardioid"]); AddFreeSource "src" (Still (1 : @Pos demo)) (5 : @Src demo);
   AddControllableSource "spk" (Still (2 : @Pos demo)); SetPath "src" "mic2" own_path; SetPath "spk" "mic2" own_path; SetSource "src" (9 : @Src demo)].
(** calls that fail: a name used twice, a source with too many channels, a path to an unknown microphone, a source for a microphone *)
Definition wrong_calls : list (@call demo) :=
  [AddMics "src" (Still (0 : @Pos demo)) None; AddFreeSource "noise" (Still (0 : @Pos demo)) (200 : @Src demo); SetPath "src" "mic3" own_path; SetSource "mic" (1 : @Src demo); SetSource "mic3" (1 : @Src demo)].
Definition script_info : info := run_info 10 5 false false.
Definition procs : list (@proc demo demo_s) := [dplayer 4].

Lemma script_proper : Forall (proper_call one_row) script.
Proof. repeat (constructor; [cbn; auto; intros; reflexivity|]). constructor. Qed.
Lemma wrong_proper : Forall (proper_call one_row) wrong_calls.
Proof. repeat (constructor; [cbn; auto; intros; reflexivity|]). constructor. Qed.
Lemma script_ends l : is_ok (finish_arrays script_info (fst (run_script one_row width (empty_coll g0) l))) = true ->
  exists c c', run_script one_row width (empty_coll g0) l = (c, snd (run_script one_row width (empty_coll g0) l)) /\ finish_arrays script_info c = Ok c'.
Proof. intros H. apply is_ok_ex in H as (c' & H). exists (fst (run_script one_row width (empty_coll g0) l)), c'. split; [apply surjective_pairing|exact H]. Qed.
Example script_outcomes : snd (run_script one_row width (empty_coll g0) script) = [Ok tt; Ok tt; Ok tt; Ok tt; Ok tt; Ok tt; Ok tt] /\
  snd (run_script one_row width (empty_coll g0) (script ++ wrong_calls)%list) = [Ok tt; Ok tt; Ok tt; Ok tt; Ok tt; Ok tt; Ok tt; Err AssertionError; Err AssertionError; Err AssertionError; Err AttributeError; Err KeyError].
Proof. split; vm_compute; reflexivity. Qed.
Example C118_consistent_meets : (forall p, 0 <= one_row p) /\ generators_shaped one_row /\ Forall (proper_call one_row) (script ++ wrong_calls)%list /\ supported script_info procs /\
  Forall (fun p => forall s w, NoDup (dkeys (snd (pr_step p s w)))) procs /\
  exists c outcomes c', run_script one_row width (empty_coll g0) (script ++ wrong_calls)%list = (c, outcomes) /\ In (Err AssertionError) outcomes /\ finish_arrays script_info c = Ok c' /\ experiment script_info c' procs.
Proof.
  assert (H1 : forall p, 0 <= one_row p) by (intros; unfold one_row; lia). assert (H2 : generators_shaped one_row) by exact demo_shaped.
  assert (H3 : Forall (proper_call one_row) (script ++ wrong_calls)%list) by (apply Forall_app; split; [exact script_proper|exact wrong_proper]).
  assert (H4 : supported script_info procs) by (cbn; lia).
  assert (H5 : Forall (fun p => forall s w, NoDup (dkeys (snd (pr_step p s w)))) procs).
  { constructor; [|constructor]. intros s w. cbn. destruct (dget w "mic"); cbn; repeat constructor. intros []. }
  split; [exact H1|split; [exact H2|split; [exact H3|split; [exact H4|split; [exact H5|]]]]].
  destruct (@script_ends ((script ++ wrong_calls)%list)) as (c & c' & R & F); [vm_compute; reflexivity|]. exists c, (snd (run_script one_row width (empty_coll g0) (script ++ wrong_calls)%list)), c'. split; [exact R|]. split; [|split; [exact F|]].
  - rewrite (proj2 script_outcomes). cbn. tauto.
  - exact (@C118_consistent demo one_row width demo_s _ g0 c _ script_info c' procs H1 H2 H3 R F H4 H5).
Qed.
Lemma script_good o : In o (snd (run_script one_row width (empty_coll g0) script)) -> o = Ok tt.
Proof. rewrite (proj1 script_outcomes). cbn. intros H. repeat destruct H as [<-|H]; try reflexivity. destruct H. Qed.
Example C118_arrays_meets : exists c outcomes c', Forall (proper_call one_row) script /\ run_script one_row width (empty_coll g0) script = (c, outcomes) /\ (forall o, In o outcomes -> o = Ok tt) /\ finish_arrays script_info c = Ok c' /\
  exists a, the_array c' "src" a /\ a_source a = Some (9 : @Src demo).
Proof.
  destruct (@script_ends (script)) as (c & c' & R & F); [vm_compute; reflexivity|]. exists c, (snd (run_script one_row width (empty_coll g0) script)), c'. split; [exact script_proper|]. split; [exact R|]. split; [exact script_good|]. split; [exact F|].
  destruct (@C118_arrays demo one_row width script g0 c _ script_info c' script_proper R script_good F) as (A & B). destruct (dget (c_arrays c') "src") as [a|] eqn:Q.
  - exists a. split; [exact Q|]. rewrite (B "src" a Q). reflexivity.
  - exfalso. apply dget_None in Q. apply Q. assert (K : map fst (map (fun kv => (fst kv, sourced (snd kv) None)) (c_arrays c')) = ["mic"; "mic2"; "src"; "spk"]) by (rewrite A; reflexivity). rewrite map_map in K. assert (I : In "src" (map (fun kv => fst (fst kv, sourced (snd kv) (@None Src))) (c_arrays c'))) by (rewrite K; cbn; tauto). exact I.
Qed.
(** one path given, one made *)
Example C118_paths_meets : exists c outcomes c', Forall (proper_call one_row) script /\ Forall no_collection script /\ run_script one_row width (empty_coll g0) script = (c, outcomes) /\ (forall o, In o outcomes -> o = Ok tt) /\ finish_arrays script_info c = Ok c' /\
  reverb script_info <> "modified" /\ In "src" (c_src c') /\ In "mic" (c_mic c') /\ In "mic2" (c_mic c') /\ last (map Some (flat_map (given "src" "mic2") script)) None = Some own_path /\ last (map Some (flat_map (given "src" "mic") script)) None = None.
Proof.
  assert (K : get (finish_arrays script_info (fst (run_script one_row width (empty_coll g0) script))) (fun c => (c_src c, c_mic c)) = Some (["src"; "spk"], ["mic"; "mic2"])) by (vm_compute; reflexivity).
  apply get_ex in K as (c' & F & K). injection K as K1 K2. exists (fst (run_script one_row width (empty_coll g0) script)), (snd (run_script one_row width (empty_coll g0) script)), c'.
  split; [exact script_proper|]. split; [repeat constructor|]. split; [apply surjective_pairing|]. split; [exact script_good|]. split; [exact F|]. split; [intros Q; discriminate Q|]. rewrite K1, K2. cbn. repeat split; auto.
Qed.
Example C118_refused_meets : exists c' : coll demo, proper_call one_row (SetSource "mic" (1 : @Src demo)) /\ no_collection (SetSource "mic" (1 : @Src demo)) /\
  do_call one_row width (fst (run_script one_row width (empty_coll g0) script)) (SetSource "mic" (1 : @Src demo)) = (c', Err AttributeError).
Proof.
  eexists. split; [exact I|]. split; [exact I|]. rewrite (surjective_pairing (do_call _ _ _ _)). f_equal.
Qed.
Example C118_errors_meets : coll_ok (fst (run_script one_row width (empty_coll g0) script)).
Proof. exact (fi_ok (fine_script (rows := one_row) width (fine_empty one_row g0) script_proper)). Qed.
End Examples.
Print Assumptions C118_consistent.
Print Assumptions C118_arrays.
Print Assumptions C118_paths.
Print Assumptions C118_refused.
Print Assumptions C118_errors.
