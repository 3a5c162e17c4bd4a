(** C91: simulators made from one setup.  C92: sources shared by arrays.  C93: figure folders.  C94: metadata files.
    C95: time strings. *)
Require Import Verif.PyBase Verif.PyLemmas Verif.PyStr Verif.PyStrLemmas Verif.ConfigModel Verif.ArrayProofs Verif.FileModel Verif.FileProps Verif.SetupModel.
Set Implicit Arguments.
Local Open Scope string_scope.
Local Open Scope list_scope.
Local Open Scope Z_scope.
Notation "x .[ i ]" := (zget x i) (at level 2, left associativity).

Section Objects.
Context {Src X Coll : Type} (get_samples : Src -> Z -> Src * list X).
Notation heap := (@heap Src).
Notation play_round := (@play_round Src X get_samples).
Notation play_rounds := (@play_rounds Src X get_samples).
Notation play := (@play Src X Coll get_samples).

Lemma zget_replace (l : list Src) i x j : 0 <= i < zlen l -> (replace l i x).[j] = if j =? i then Some x else l.[j].
Proof.
  intros H. unfold replace. rewrite zget_app, zlen_pyslice_in by lia. destruct (Z.ltb_spec j (i - 0)).
  - replace (j =? i) with false by lia. rewrite zget_pyslice_in by lia. destruct (Z.leb_spec 0 j); cbn [andb].
    + replace (j <? i - 0) with true by lia. f_equal.
    + symmetry. apply zget_neg. lia.
  - rewrite zget_app. change (zlen [x]) with 1. destruct (Z.eqb_spec j i) as [->|].
    + replace (i - (i - 0)) with 0 by lia. reflexivity.
    + replace (j - (i - 0) <? 1) with false by lia. rewrite zget_pyslice_in by lia. replace (0 <=? j - (i - 0) - 1) with true by lia. cbn [andb]. destruct (Z.ltb_spec (j - (i - 0) - 1) (zlen l - (i + 1))); [f_equal; lia|]. symmetry. apply zget_out. lia.
Qed.
Lemma zlen_replace (l : list Src) i x : 0 <= i < zlen l -> zlen (replace l i x) = zlen l.
Proof. intros H. unfold replace. rewrite !zlen_app, !zlen_pyslice_in by lia. change (zlen [x]) with 1. lia. Qed.

(* ------------------------------------------------------------------ the same objects under other locations *)
Section Renaming.
Variable memo : list (Z * Z).
Hypothesis (K1 : forall a b b', In (a, b) memo -> In (a, b') memo -> b = b') (K2 : forall a a' b, In (a, b) memo -> In (a', b) memo -> a = a').
Definition related (A B : list Src) : Prop := forall a b, In (a, b) memo -> A.[a] = B.[b].
Definition renamed (s1 s2 : sources) : Prop := Forall2 (fun x y => fst x = fst y /\ In (snd x, snd y) memo) s1 s2.

Lemma round_renamed n : forall s1 s2, renamed s1 s2 -> forall A B out A' out', related A B ->
  foldM (fun (acc : list Src * list (string * list X)) (nl : string * Z) => match (fst acc).[snd nl] with None => Err AttributeError | Some x => let '(x', o) := get_samples x n in Ok (replace (fst acc) (snd nl) x', snd acc ++ [(fst nl, o)]) end) (A, out) s1 = Ok (A', out') ->
  exists B', foldM (fun (acc : list Src * list (string * list X)) (nl : string * Z) => match (fst acc).[snd nl] with None => Err AttributeError | Some x => let '(x', o) := get_samples x n in Ok (replace (fst acc) (snd nl) x', snd acc ++ [(fst nl, o)]) end) (B, out) s2 = Ok (B', out') /\ related A' B'.
Proof.
  induction 1 as [|[n1 l1] [n2 l2] s1 s2 [E1 E2] F IH]; intros A B out A' out' R E; cbn [foldM] in *.
  - injection E as <- <-. exists B. auto.
  - cbn [fst snd] in *. subst n2. pose proof (R _ _ E2) as Q. rewrite <- Q. destruct (A.[l1]) as [x|] eqn:GA; [|discriminate]. destruct (get_samples x n) as [x' o]. cbn [bind] in *.
    apply (IH _ (replace B l2 x')) in E; auto. intros a b I. pose proof (zget_some_range _ _ GA). symmetry in Q. pose proof (zget_some_range _ _ Q). rewrite !zget_replace by auto.
    destruct (Z.eqb_spec a l1) as [->|N1]; destruct (Z.eqb_spec b l2) as [->|N2]; auto; exfalso; [apply N2; eapply K1; eauto|apply N1; eapply K2; eauto].
Qed.
Lemma rounds_renamed s1 s2 : renamed s1 s2 -> forall ns A B A' out, related A B -> play_rounds A s1 ns = Ok (A', out) -> exists B', play_rounds B s2 ns = Ok (B', out) /\ related A' B'.
Proof.
  intros F ns. unfold SetupModel.play_rounds. set (step1 := fun (acc : list Src * list (list (string * list X))) n => r <- play_round (fst acc) s1 n ;; Ok (fst r, snd acc ++ [snd r])). set (step2 := fun (acc : list Src * list (list (string * list X))) n => r <- play_round (fst acc) s2 n ;; Ok (fst r, snd acc ++ [snd r])). generalize (@nil (list (string * list X))) as out0. induction ns as [|n ns IH]; intros out0 A B A' out R E; cbn [foldM] in *; [injection E as <- <-; eauto|].
  unfold step1 at 1 in E. unfold step2 at 1. cbn [fst snd] in *. destruct (play_round A s1 n) as [[A1 o1]|] eqn:E1; [|discriminate]. cbn [bind fst snd] in *. unfold SetupModel.play_round in E1. destruct (@round_renamed n s1 s2 F A B [] A1 o1 R E1) as (B1 & E2 & R1). unfold SetupModel.play_round at 1. rewrite E2. cbn [bind fst snd]. exact (IH _ _ _ _ _ R1 E).
Qed.
End Renaming.

(** playing changes only the sources that play *)
Lemma round_frame n s : forall A out A' out', foldM (fun (acc : list Src * list (string * list X)) (nl : string * Z) => match (fst acc).[snd nl] with None => Err AttributeError | Some x => let '(x', o) := get_samples x n in Ok (replace (fst acc) (snd nl) x', snd acc ++ [(fst nl, o)]) end) (A, out) s = Ok (A', out') ->
  zlen A' = zlen A /\ forall l, ~ In l (map snd s) -> A'.[l] = A.[l].
Proof.
  induction s as [|[n1 l1] s IH]; intros A out A' out' E; cbn [foldM] in *; [injection E as <- <-; auto|]. cbn [fst snd] in *. destruct (A.[l1]) as [x|] eqn:GA; [|discriminate]. destruct (get_samples x n) as [x' o]. cbn [bind] in *.
  pose proof (zget_some_range _ _ GA). apply IH in E as [L F]. rewrite zlen_replace in L by auto. split; auto. intros l N. cbn [map snd In] in N. rewrite F by tauto. rewrite zget_replace by auto. destruct (Z.eqb_spec l l1); [exfalso; apply N; auto|auto].
Qed.
Lemma rounds_frame s ns : forall A A' out, play_rounds A s ns = Ok (A', out) -> zlen A' = zlen A /\ forall l, ~ In l (map snd s) -> A'.[l] = A.[l].
Proof.
  unfold SetupModel.play_rounds. set (step1 := fun (acc : list Src * list (list (string * list X))) n => r <- play_round (fst acc) s n ;; Ok (fst r, snd acc ++ [snd r])). generalize (@nil (list (string * list X))) as out0. induction ns as [|n ns IH]; intros out0 A A' out E; cbn [foldM] in *; [injection E as <- <-; auto|].
  unfold step1 at 1 in E. cbn [fst snd] in *. destruct (play_round A s n) as [[A1 o1]|] eqn:E1; [|discriminate]. cbn [bind fst snd] in *. unfold SetupModel.play_round in E1. destruct (@round_frame n s A [] A1 o1 E1) as [L1 F1]. apply IH in E as [L F]. split; [lia|]. intros l N. rewrite F, F1; auto.
Qed.

(* ------------------------------------------------------------------ deepcopy *)
Lemma memo_get_spec memo l l' : memo_get memo l = Some l' -> In (l, l') memo.
Proof. unfold memo_get. destruct (find (fun kv => fst kv =? l) memo) as [[a b]|] eqn:E; [|discriminate]. apply find_some in E as [I Q]. cbn [fst snd] in *. intros Q2. injection Q2 as <-. replace l with a by lia. auto. Qed.
Lemma memo_get_none memo l : memo_get memo l = None -> forall b, ~ In (l, b) memo.
Proof. unfold memo_get. intros H b I. destruct (find (fun kv => fst kv =? l) memo) as [[a c]|] eqn:E; [discriminate|]. pose proof (find_none _ _ E _ I) as Q. cbn [fst] in Q. lia. Qed.
Definition copied (srcs srcs' : list Src) (memo : list (Z * Z)) : Prop :=
  (exists ext, srcs' = srcs ++ ext) /\
  (forall a b, In (a, b) memo -> 0 <= a < zlen srcs /\ zlen srcs <= b < zlen srcs' /\ srcs.[a] = srcs'.[b]) /\
  (forall a b b', In (a, b) memo -> In (a, b') memo -> b = b') /\ (forall a a' b, In (a, b) memo -> In (a', b) memo -> a = a').
Lemma zget_ext_front (l ext : list Src) i : i < zlen l -> (l ++ ext).[i] = l.[i].
Proof. intros H. rewrite zget_app. replace (i <? zlen l) with true by lia. auto. Qed.
Lemma deepcopy_spec srcs s srcs' s' : (forall nl, In nl s -> snd nl < zlen srcs) -> deepcopy_sources srcs s = Ok (srcs', s') -> exists memo, copied srcs srcs' memo /\ renamed memo s s'.
Proof.
  intros HB E. unfold deepcopy_sources in E.
  assert (G : forall todo cur memo front done r, (forall nl, In nl todo -> snd nl < zlen srcs) -> copied srcs cur memo -> renamed memo front done -> foldM (copy_source (Src := Src)) (cur, memo, done) todo = Ok r ->
    copied srcs (fst (fst r)) (snd (fst r)) /\ renamed (snd (fst r)) (front ++ todo) (snd r)).
  { induction todo as [|[n l] todo IH]; intros cur memo front done r HB' C R F; cbn [foldM] in F; [injection F as <-; rewrite app_nil_r; auto|].
    unfold copy_source at 1 in F. cbn [fst snd] in F. destruct (memo_get memo l) as [l'|] eqn:M.
    - cbn [bind] in F. apply memo_get_spec in M. apply (IH _ _ (front ++ [(n, l)])) in F; [rewrite <- app_assoc in F; exact F|intros; apply HB'; right; auto|auto|]. apply Forall2_app; [auto|constructor; [split; auto|constructor]].
    - pose proof (memo_get_none _ _ M) as NM. destruct (cur.[l]) as [x|] eqn:G; [|discriminate]. cbn [bind] in F. destruct C as ((ext & EX) & C1 & C2 & C3). pose proof (zget_some_range _ _ G) as RL. pose proof (HB' (n, l) (or_introl eq_refl)) as BL. cbn [snd] in BL.
      assert (LC : zlen srcs <= zlen cur) by (rewrite EX, zlen_app; pose proof (zlen_nonneg ext); lia).
      apply (IH _ _ (front ++ [(n, l)])) in F; [rewrite <- app_assoc in F; exact F|intros; apply HB'; right; auto| |].
      + split; [exists (ext ++ [x]); rewrite EX, <- app_assoc; auto|]. split; [|split].
        * intros a b I. rewrite zlen_app. change (zlen [x]) with 1. apply in_app_or in I as [I|[I|[]]].
          { destruct (C1 _ _ I) as (? & ? & ->). split; [auto|]. split; [lia|]. symmetry. apply zget_ext_front. lia. }
          { injection I as <- <-. split; [lia|]. split; [lia|]. rewrite zget_app, Z.ltb_irrefl, Z.sub_diag. rewrite EX, zget_ext_front in G by lia. auto. }
        * intros a b b' I J. apply in_app_or in I as [I|[I|[]]]; apply in_app_or in J as [J|[J|[]]]; [eapply C2; eauto| | |congruence].
          { injection J as <- <-. exfalso. eapply NM; eauto. } { injection I as <- <-. exfalso. eapply NM; eauto. }
        * intros a a' b I J. apply in_app_or in I as [I|[I|[]]]; apply in_app_or in J as [J|[J|[]]]; [eapply C3; eauto| | |congruence].
          { injection J as <- <-. destruct (C1 _ _ I). lia. } { injection I as <- <-. destruct (C1 _ _ J). lia. }
      + apply Forall2_app; [|constructor; [split; [auto|cbn [snd]; apply in_or_app; right; left; auto]|constructor]]. clear - R. induction R as [|? ? ? ? [? ?]]; constructor; auto. split; auto. apply in_or_app. auto. }
  destruct (foldM (copy_source (Src := Src)) (srcs, [], []) s) as [[[a b] d]|] eqn:F; [|discriminate]. cbn [bind] in E. injection E as <- <-. apply (G s srcs [] [] []) in F; auto.
  - cbn [fst snd app] in F. exists b. auto.
  - split; [exists []; rewrite app_nil_r; auto|]. split; [intros ? ? []|]. split; intros ? ? ? [].
  - constructor.
Qed.

(** C91.  Two simulators made from one setup play exactly the same, also if the first one has already run, and the sources and
    the configuration of the setup are not changed. *)
Theorem C91_isolated (finish : info -> Coll -> res Coll) (h h1 h2 h3 : heap) (s : setup) m1 m2 mbs out :
  (forall nl, In nl (s_sources s) -> snd nl < zlen (h_src h)) ->
  create_simulator finish h s = Ok (h1, m1) -> create_simulator finish h1 s = Ok (h2, m2) -> play h2 m1 mbs = Ok (h3, out) ->
  (exists h4, play h3 m2 mbs = Ok (h4, out) /\ h_info h4 = h_info h /\ forall l, 0 <= l < zlen (h_src h) -> (h_src h4).[l] = (h_src h).[l]) /\ m_coll m1 = m_coll m2.
Proof.
  intros HB E1 E2 P. unfold create_simulator in E1, E2. destruct ((h_info h).[s_info s]) as [i|] eqn:GI; [|discriminate]. cbn [bind] in E1.
  destruct (deepcopy_sources (h_src h) (s_sources s)) as [[a1 b1]|] eqn:D1; [|discriminate]. cbn [bind] in E1. destruct (finish i (s_coll s)) as [cc|] eqn:FI; [|discriminate]. cbn [bind] in E1. injection E1 as <- <-. cbn [fst snd h_info h_src] in *.
  rewrite GI in E2. cbn [bind] in E2. destruct (deepcopy_sources a1 (s_sources s)) as [[a2 b2]|] eqn:D2; [|discriminate]. cbn [bind] in E2. rewrite FI in E2. cbn [bind] in E2. injection E2 as <- <-. cbn [fst snd] in *. split; [|reflexivity].
  destruct (deepcopy_spec _ _ HB D1) as (memo1 & (X1 & C1 & U1 & V1) & R1). destruct X1 as [ext1 X1]. assert (L1 : zlen (h_src h) <= zlen a1) by (rewrite X1, zlen_app; pose proof (zlen_nonneg ext1); lia).
  assert (HB2 : forall nl, In nl (s_sources s) -> snd nl < zlen a1) by (intros nl I; specialize (HB nl I); lia).
  destruct (deepcopy_spec _ _ HB2 D2) as (memo2 & (X2 & C2 & U2 & V2) & R2). destruct X2 as [ext2 X2].
  unfold SetupModel.play in *. cbn [m_info m_sources h_info h_src] in *. rewrite GI in P. cbn [bind] in P. destruct (play_rounds a2 b1 (requests i mbs)) as [[a3 o3]|] eqn:PR; [|discriminate]. cbn [bind fst snd] in P. injection P as <- <-. cbn [h_info h_src]. rewrite GI. cbn [bind].
  (* the sources of the setup would play the same *)
  assert (Q : exists a', play_rounds a2 (s_sources s) (requests i mbs) = Ok (a', o3)).
  { set (inv := map (fun p => (snd p, fst p)) memo1). assert (II : forall a b, In (a, b) inv -> In (b, a) memo1) by (intros a b I; unfold inv in I; apply in_map_iff in I as ([? ?] & Q & I); injection Q as <- <-; auto).
    destruct (@rounds_renamed inv) with (s1 := b1) (s2 := s_sources s) (ns := requests i mbs) (A := a2) (B := a2) (A' := a3) (out := o3) as (a' & Q & _); auto.
    - intros a b b' I J. apply II in I, J. eapply V1; eauto.
    - intros a a' b I J. apply II in I, J. eapply U1; eauto.
    - assert (R1' : renamed inv b1 (s_sources s)). { unfold renamed in *. clear - R1. induction R1 as [|? ? ? ? [Q1 Q2]]; constructor; auto. split; auto. unfold inv. apply in_map_iff. exists (snd x, snd y). auto. } exact R1'.
    - intros a b I. apply II in I. destruct (C1 _ _ I) as (I1 & I2 & I3). rewrite X2, !zget_ext_front by lia. rewrite <- I3. rewrite X1, zget_ext_front by lia. auto.
    - eauto. }
  destruct Q as (a' & Q). destruct (rounds_frame _ _ _ PR) as [L3 F3].
  assert (D : forall a b, In (a, b) memo2 -> ~ In b (map snd b1)).
  { intros a b I J. destruct (C2 _ _ I) as (_ & J2 & _). assert (T : forall v, In v (map snd b1) -> v < zlen a1) by (clear - R1 C1; induction R1 as [|? ? ? ? [Q1 Q2] R IH]; intros v; [intros []|intros [<-|K]; [destruct (C1 _ _ Q2); lia|auto]]). specialize (T _ J). lia. }
  destruct (@rounds_renamed memo2 U2 V2 _ _ R2 (requests i mbs) a2 a3 a' o3) as (a4 & Q4 & _); auto.
  { intros a b I. rewrite F3 by (eapply D; eauto). destruct (C2 _ _ I) as (? & ? & <-). rewrite X2, zget_ext_front by lia. auto. }
  rewrite Q4. cbn [bind fst snd]. eexists. split; [reflexivity|]. cbn [h_info h_src]. split; auto. intros l Hl. destruct (rounds_frame _ _ _ Q4) as [_ F4].
  assert (T1 : forall v, In v (map snd b1) -> zlen (h_src h) <= v) by (clear - R1 C1; induction R1 as [|? ? ? ? [Q1 Q2] R IH]; intros v; [intros []|intros [<-|K]; [destruct (C1 _ _ Q2); lia|auto]]).
  assert (T2 : forall v, In v (map snd b2) -> zlen a1 <= v) by (clear - R2 C2; induction R2 as [|? ? ? ? [Q1 Q2] R IH]; intros v; [intros []|intros [<-|K]; [destruct (C2 _ _ Q2); lia|auto]]).
  rewrite F4 by (intros J; specialize (T2 _ J); lia). rewrite F3 by (intros J; specialize (T1 _ J); lia). rewrite X2, zget_ext_front by lia. rewrite X1, zget_ext_front by lia. auto.
Qed.
(** Changing the configuration of the setup after a simulator was made changes the configuration of that simulator. *)
Theorem C91_config_refuted (finish : info -> Coll -> res Coll) (h h1 : heap) (s : setup) m i f :
  create_simulator finish h s = Ok (h1, m) -> (h_info h).[s_info s] = Some i ->
  exists h2, change_config f h1 s = Ok h2 /\ (h_info h1).[m_info m] = Some i /\ (h_info h2).[m_info m] = Some (f i).
Proof.
  intros E GI. unfold create_simulator in E. rewrite GI in E. cbn [bind] in E. destruct (deepcopy_sources (h_src h) (s_sources s)) as [[a1 b1]|]; [|discriminate]. cbn [bind] in E. destruct (finish i (s_coll s)); [|discriminate]. cbn [bind] in E. injection E as <- <-. cbn [fst snd h_info m_info].
  unfold change_config. cbn [h_info h_src]. rewrite GI. pose proof (zget_some_range _ _ GI). destruct (@pyslice_set_in _ (h_info h) (s_info s) (s_info s + 1) [f i]) as (l' & -> & L & G); [lia|lia|change (zlen [f i]) with 1; lia|]. cbn [bind]. eexists. split; [reflexivity|]. cbn [h_info]. split; auto. rewrite G. replace ((s_info s <=? s_info s) && (s_info s <? s_info s + 1))%bool with true by lia. rewrite Z.sub_diag. auto.
Qed.

(* ------------------------------------------------------------------ C92 *)
(** the source plays the frames f(0), f(1), .. whatever numbers of samples are requested *)
Fixpoint draws (x : Src) (ns : list Z) : list (list X) := match ns with [] => [] | n :: r => let '(x', o) := get_samples x n in o :: draws x' r end.
Fixpoint pieces (f : Z -> X) (start : Z) (ns : list Z) : list (list X) := match ns with [] => [] | n :: r => map f (zrange start (start + n)) :: pieces f (start + n) r end.
Definition streams (x : Src) (f : Z -> X) (at_ : Z) : Prop := forall ns, (forall n, In n ns -> 0 <= n) -> draws x ns = pieces f at_ ns.
Lemma streams_step x f q n x' o : 0 <= n -> streams x f q -> get_samples x n = (x', o) -> o = map f (zrange q (q + n)) /\ streams x' f (q + n).
Proof.
  intros Hn S E. split; [|intros ns Hns].
  - specialize (S [n]). cbn [draws pieces] in S. rewrite E in S. specialize (S ltac:(intros ? [<-|[]]; auto)). congruence.
  - specialize (S (n :: ns)). cbn [draws pieces] in S. rewrite E in S. specialize (S ltac:(intros ? [<-|I]; auto)). congruence.
Qed.
(** how many arrays of a list have their source at this location *)
Definition users (s : sources) (l : Z) : Z := zlen (filter (fun nl => snd nl =? l) s).
Definition total (ns : list Z) : Z := fold_right Z.add 0 ns.
Lemma users_app a b l : users (a ++ b) l = users a l + users b l.
Proof. unfold users. rewrite filter_app, zlen_app. auto. Qed.

Section Playing.
Variables (f : Z -> Z -> X).
Definition state_at (srcs : list Src) (s : sources) (q : Z -> Z) : Prop := forall nl, In nl s -> exists x, srcs.[snd nl] = Some x /\ streams x (f (snd nl)) (q (snd nl)).
Lemma round_played all n : 0 <= n -> forall todo front srcs q out, all = front ++ todo -> state_at srcs all (fun l => q l + users front l * n) ->
  exists srcs' out', foldM (fun (acc : list Src * list (string * list X)) (nl : string * Z) => match (fst acc).[snd nl] with None => Err AttributeError | Some x => let '(x', o) := get_samples x n in Ok (replace (fst acc) (snd nl) x', snd acc ++ [(fst nl, o)]) end) (srcs, out) todo = Ok (srcs', out ++ out') /\
    state_at srcs' all (fun l => q l + users all l * n) /\ zlen out' = zlen todo /\
    forall p name l, todo.[p] = Some (name, l) -> out'.[p] = Some (name, map (f l) (zrange (q l + users (front ++ firstn (Z.to_nat p) todo) l * n) (q l + users (front ++ firstn (Z.to_nat p) todo) l * n + n))).
Proof.
  intros Hn. induction todo as [|[nm l0] todo IH]; intros front srcs q out EA S; cbn [foldM].
  - exists srcs, []. rewrite !app_nil_r. split; auto. rewrite app_nil_r in EA. subst. split; auto. split; auto. intros p name l H. rewrite zget_nil in H. discriminate.
  - cbn [fst snd]. destruct (S (nm, l0)) as (x & G & ST); [rewrite EA; apply in_or_app; right; left; auto|]. cbn [snd] in *. rewrite G. destruct (get_samples x n) as [x' o] eqn:GS. cbn [bind]. destruct (streams_step Hn ST GS) as [-> ST'].
    pose proof (zget_some_range _ _ G) as RG.
    assert (UF : forall l, users (front ++ [(nm, l0)]) l = users front l + (if l0 =? l then 1 else 0)). { intros l. rewrite users_app. unfold users at 2. cbn [filter snd]. destruct (l0 =? l); auto. }
    destruct (IH (front ++ [(nm, l0)]) (replace srcs l0 x') q (out ++ [(nm, map (f l0) (zrange (q l0 + users front l0 * n) (q l0 + users front l0 * n + n)))])) as (srcs' & out' & E & S' & L & G').
    + rewrite <- app_assoc. auto.
    + intros nl I. rewrite zget_replace by auto. rewrite UF. destruct (Z.eqb_spec (snd nl) l0) as [->|N].
      * exists x'. split; auto. rewrite Z.eqb_refl. replace (q l0 + (users front l0 + 1) * n) with (q l0 + users front l0 * n + n) by lia. auto.
      * replace (l0 =? snd nl) with false by lia. rewrite Z.add_0_r. auto.
    + exists srcs', ((nm, map (f l0) (zrange (q l0 + users front l0 * n) (q l0 + users front l0 * n + n))) :: out'). split; [rewrite E, <- app_assoc; auto|]. split; auto. split; [rewrite !zlen_cons; lia|].
      intros p name l H. rewrite zget_cons in H. rewrite zget_cons. destruct (Z.eqb_spec p 0) as [->|NP].
      * injection H as <- <-. cbn [Z.to_nat firstn]. rewrite app_nil_r. auto.
      * pose proof (zget_some_range _ _ H). rewrite (G' _ _ _ H). replace (Z.to_nat p) with (Datatypes.S (Z.to_nat (p - 1))) by lia. cbn [firstn]. rewrite <- app_assoc. auto.
Qed.
(** C92.  In every round the array number p gets the next samples of its source, behind those of all earlier rounds for all arrays with
    this source and behind those of the earlier arrays with it in this round. *)
Theorem C92_pattern srcs (s : sources) ns : (forall n, In n ns -> 0 <= n) -> state_at srcs s (fun _ => 0) ->
  exists srcs' out, play_rounds srcs s ns = Ok (srcs', out) /\ zlen out = zlen ns /\
    forall r n p name l, ns.[r] = Some n -> s.[p] = Some (name, l) -> exists played, out.[r] = Some played /\ zlen played = zlen s /\
      let start := users s l * total (firstn (Z.to_nat r) ns) + users (firstn (Z.to_nat p) s) l * n in
      played.[p] = Some (name, map (f l) (zrange start (start + n))).
Proof.
  intros Hns S0. unfold SetupModel.play_rounds.
  assert (G : forall todo done srcs out, (forall n, In n todo -> 0 <= n) -> state_at srcs s (fun l => users s l * total done) ->
    exists srcs' out', foldM (fun (acc : list Src * list (list (string * list X))) n => r <- play_round (fst acc) s n ;; Ok (fst r, snd acc ++ [snd r])) (srcs, out) todo = Ok (srcs', out ++ out') /\ zlen out' = zlen todo /\
      forall r n p name l, todo.[r] = Some n -> s.[p] = Some (name, l) -> exists played, out'.[r] = Some played /\ zlen played = zlen s /\
      let start := users s l * total (done ++ firstn (Z.to_nat r) todo) + users (firstn (Z.to_nat p) s) l * n in
      played.[p] = Some (name, map (f l) (zrange start (start + n)))).
  { assert (TA : forall a b, total (a ++ b) = total a + total b) by (clear; induction a as [|x a IH]; intros b; cbn [total fold_right app] in *; [auto|]; unfold total in *; cbn [fold_right]; rewrite IH; lia).
    induction todo as [|n todo IH]; intros done srcs0 out Hn S; cbn [foldM].
    - exists srcs0, []. rewrite app_nil_r. split; auto. split; auto. intros r n p name l H. rewrite zget_nil in H. discriminate.
    - cbn [fst snd]. destruct (@round_played s n (Hn n (or_introl eq_refl)) s [] srcs0 (fun l => users s l * total done) []) as (srcs1 & o1 & E1 & S1 & L1 & G1); auto.
      { intros nl I. destruct (S nl I) as (x & A & B). exists x. split; auto. replace (users s (snd nl) * total done + users [] (snd nl) * n) with (users s (snd nl) * total done); auto. change (users [] (snd nl)) with 0. lia. }
      cbn [app] in E1, G1. unfold SetupModel.play_round at 1. rewrite E1. cbn [bind fst snd].
      destruct (IH (done ++ [n]) srcs1 (out ++ [o1])) as (srcs' & out' & E & L & G); [intros; apply Hn; right; auto| |].
      { intros nl I. destruct (S1 nl I) as (x & A & B). exists x. split; auto. rewrite TA. replace (total [n]) with n by (unfold total; cbn [fold_right]; lia). replace (users s (snd nl) * (total done + n)) with (users s (snd nl) * total done + users s (snd nl) * n) by lia. auto. }
      exists srcs', (o1 :: out'). split; [rewrite E, <- app_assoc; auto|]. split; [rewrite !zlen_cons; lia|].
      intros r n' p name l H Hp. rewrite zget_cons in H. rewrite zget_cons. destruct (Z.eqb_spec r 0) as [->|NR].
      + injection H as <-. exists o1. split; auto. split; auto. cbv zeta. cbn [Z.to_nat firstn]. rewrite app_nil_r. exact (G1 _ _ _ Hp).
      + destruct (G _ _ _ _ _ H Hp) as (played & A & B & C). pose proof (zget_some_range _ _ H). exists played. split; auto. split; auto. cbv zeta in *. replace (Z.to_nat r) with (Datatypes.S (Z.to_nat (r - 1))) by lia. cbn [firstn]. rewrite <- app_assoc in C. exact C. }
  destruct (G ns [] srcs []) as (srcs' & out' & E & L & K); auto.
  { intros nl I. destruct (S0 nl I) as (x & A & B). exists x. split; auto. replace (users s (snd nl) * total []) with 0 by (unfold total; cbn [fold_right]; lia). auto. }
  exists srcs', out'. split; auto.
Qed.
(** Arrays with sources of their own get the samples of the source without gaps, however the requests are divided. *)
Theorem C92_own srcs (s : sources) ns : (forall n, In n ns -> 0 <= n) -> state_at srcs s (fun _ => 0) -> NoDup (map snd s) ->
  exists srcs' out, play_rounds srcs s ns = Ok (srcs', out) /\ forall r n p name l, ns.[r] = Some n -> s.[p] = Some (name, l) ->
    exists played, out.[r] = Some played /\ played.[p] = Some (name, map (f l) (zrange (total (firstn (Z.to_nat r) ns)) (total (firstn (Z.to_nat r) ns) + n))).
Proof.
  intros Hns S N. destruct (@C92_pattern srcs s ns Hns S) as (srcs' & out & E & L & G). exists srcs', out. split; auto. intros r n p name l Hr Hp. destruct (G _ _ _ _ _ Hr Hp) as (played & A & _ & B). exists played. split; auto. cbv zeta in B.
  assert (U : forall t p, NoDup (map snd t) -> t.[p] = Some (name, l) -> users t l = 1 /\ users (firstn (Z.to_nat p) t) l = 0).
  { clear. induction t as [|[n0 l0] t IH]; intros p N H; [rewrite zget_nil in H; discriminate|]. cbn [map] in N. inversion N as [|? ? N1 N2]; subst. cbn [snd] in N1. rewrite zget_cons in H. destruct (Z.eqb_spec p 0) as [->|NP].
    - injection H as -> ->. split; [|reflexivity]. unfold users. cbn [filter snd]. rewrite Z.eqb_refl. assert (filter (fun nl : string * Z => snd nl =? l) t = []) as ->; [|reflexivity].
      clear - N1. induction t as [|[n1 l1] t IH]; auto. cbn [map snd In] in N1. cbn [filter snd]. replace (l1 =? l) with false by (destruct (Z.eqb_spec l1 l); [exfalso; apply N1; auto|auto]). apply IH. auto.
    - pose proof (zget_some_range _ _ H). destruct (IH _ N2 H) as [U1 U2]. assert (l0 <> l) by (intros ->; apply N1; apply zget_In in H; apply in_map_iff; exists (name, l); auto). split.
      + unfold users in *. cbn [filter snd]. replace (l0 =? l) with false by lia. auto.
      + replace (Z.to_nat p) with (Datatypes.S (Z.to_nat (p - 1))) by lia. cbn [firstn]. unfold users in *. cbn [filter snd]. replace (l0 =? l) with false by lia. auto. }
  destruct (U s p N Hp) as [U1 U2]. rewrite U1, U2 in B. replace (1 * total (firstn (Z.to_nat r) ns) + 0 * n) with (total (firstn (Z.to_nat r) ns)) in B by lia. auto.
Qed.
(** A run requests first the buffer or one sample and then every sample on its own, [tot_samples + max_block_size] times; each array with a source of its own gets the
    consecutive samples of that. *)
Theorem C92_run (h : heap) m i mbs : zget (h_info h) (m_info m) = Some i -> 0 <= sim_buffer i -> 0 <= tot_samples i + mbs -> state_at (h_src h) (m_sources m) (fun _ => 0) -> NoDup (map snd (m_sources m)) ->
  let first := if start_sources_before_0 i then sim_buffer i else 1 in
  exists h' out, play h m mbs = Ok (h', out) /\ zlen out = 1 + tot_samples i + mbs /\
    forall p name l, (m_sources m).[p] = Some (name, l) ->
      (exists played, out.[0] = Some played /\ played.[p] = Some (name, map (f l) (zrange 0 first))) /\
      forall n, 0 <= n < tot_samples i + mbs -> exists played, out.[n + 1] = Some played /\ played.[p] = Some (name, [f l (first + n)]).
Proof.
  intros Hi Hb Ht S N first. unfold SetupModel.play. rewrite Hi. cbn [bind].
  assert (Q : requests i mbs = first :: zrep (tot_samples i + mbs) 1) by reflexivity.
  assert (Hns : forall n, In n (requests i mbs) -> 0 <= n). { intros n I. rewrite Q in I. destruct I as [<-|I]; [unfold first; destruct (start_sources_before_0 i); lia|]. apply repeat_spec in I. lia. }
  assert (H0 : 0 <= first) by (apply Hns; rewrite Q; left; auto).
  destruct (@C92_pattern (h_src h) (m_sources m) (requests i mbs) Hns S) as (srcs' & out & E & L & _).
  destruct (@C92_own (h_src h) (m_sources m) (requests i mbs) Hns S N) as (srcs2 & out2 & E2 & G). rewrite E in E2. injection E2 as <- <-.
  rewrite E. cbn [bind fst snd]. eexists _, out. split; [reflexivity|]. split; [rewrite L, Q, zlen_cons, zlen_zrep by lia; lia|].
  intros p name l Hp. split.
  - destruct (G 0 first p name l) as (played & A & B); [rewrite Q; reflexivity|auto|]. exists played. split; auto.
  - intros n Hn. destruct (G (n + 1) 1 p name l) as (played & A & B); [rewrite Q, zget_cons; replace (n + 1 =? 0) with false by lia; replace (n + 1 - 1) with n by lia; rewrite zget_zrep; replace (0 <=? n) with true by lia; replace (n <? tot_samples i + mbs) with true by lia; reflexivity|auto|].
    exists played. split; auto. rewrite B, Q. replace (Z.to_nat (n + 1)) with (Datatypes.S (Z.to_nat n)) by lia. cbn [firstn].
    assert (T : total (first :: firstn (Z.to_nat n) (zrep (tot_samples i + mbs) 1)) = first + n).
    { change (total (first :: ?x)) with (first + total x). f_equal. unfold zrep. assert (R : forall a b, (a <= b)%nat -> firstn a (repeat 1 b) = repeat 1 a) by (clear; induction a as [|a IH]; intros [|b] H; cbn; auto; [lia|]; rewrite IH; auto; lia).
      rewrite R by lia. assert (R2 : forall a, total (repeat 1 a) = Z.of_nat a) by (clear; induction a as [|a IH]; auto; cbn [repeat]; change (total (1 :: ?x)) with (1 + total x); rewrite IH; lia). rewrite R2. lia. }
    rewrite T. rewrite zrange_cons by lia. rewrite zrange_empty by lia. reflexivity.
Qed.
End Playing.
End Objects.
(* REST *)
(* ------------------------------------------------------------------ C91, C92: concrete cases *)
Section Examples.
(** a source that counts *)
Definition count_get (x n : Z) : Z * list Z := (x + n, map (fun k => k) (zrange x (x + n))).
Definition small_info (tot : Z) : info := mkInfo tot 4 8 false false 1 8 0 3 "none" [] [] 0 8 false 0 0 8 "none" 0 false.
Definition demo_heap : @heap Z := mkHeap [0; 100] [small_info 3].
Definition demo_setup : @setup unit := mkSetup 0 tt [("a", 0); ("b", 1)].
Definition keep (i : info) (c : unit) : res unit := Ok c.
Definition get_ok {A} (d : A) (r : res A) : A := match r with Ok x => x | Err _ => d end.
Example C91_example : exists h1 m1 h2 m2 h3 out, create_simulator keep demo_heap demo_setup = Ok (h1, m1) /\ create_simulator keep h1 demo_setup = Ok (h2, m2) /\
  play count_get h2 m1 1 = Ok (h3, out) /\ out = [[("a", [0]); ("b", [100])]; [("a", [1]); ("b", [101])]; [("a", [2]); ("b", [102])]; [("a", [3]); ("b", [103])]; [("a", [4]); ("b", [104])]] /\
  exists h4, play count_get h3 m2 1 = Ok (h4, out) /\ h_src h4 <> h_src h3.
Proof.
  do 6 eexists. split; [vm_compute; reflexivity|]. split; [vm_compute; reflexivity|]. split; [vm_compute; reflexivity|]. split; [vm_compute; reflexivity|]. eexists. split; [vm_compute; reflexivity|]. vm_compute. discriminate.
Qed.
Example C91_bounds : forall nl, In nl (s_sources demo_setup) -> snd nl < zlen (h_src demo_heap).
Proof. intros nl [<-|[<-|[]]]; reflexivity. Qed.
(** the first simulator was made for 3 samples and plays 5 after the configuration was changed for the next one *)
Example C91_config_example : exists h1 m h2 h3 out, create_simulator keep demo_heap demo_setup = Ok (h1, m) /\ change_config (fun _ => small_info 5) h1 demo_setup = Ok h2 /\ play count_get h2 m 0 = Ok (h3, out) /\ zlen out = 1 + 5.
Proof. do 5 eexists. split; [vm_compute; reflexivity|]. split; [vm_compute; reflexivity|]. split; vm_compute; reflexivity. Qed.

Lemma draws_count ns : forall x, draws count_get x ns = pieces (fun k => k) x ns.
Proof. induction ns as [|n ns IH]; intros x; cbn [draws pieces count_get]; auto. rewrite IH. auto. Qed.
Lemma count_streams (srcs : list Z) (s : sources) : (forall nl, In nl s -> srcs.[snd nl] = Some 0) -> state_at count_get (fun _ k => k) srcs s (fun _ => 0).
Proof. intros H nl I. exists 0. split; auto. intros ns _. apply draws_count. Qed.
Example C92_example : exists srcs out, play_rounds count_get [0; 0] [("a", 0); ("b", 1)] [2; 1; 1] = Ok (srcs, out) /\ exists played, out.[2] = Some played /\ played.[1] = Some ("b", [3]).
Proof.
  destruct (@C92_own Z Z count_get (fun _ k => k) [0; 0] [("a", 0); ("b", 1)] [2; 1; 1]) as (srcs & out & E & G).
  - intros n [<-|[<-|[<-|[]]]]; lia.
  - apply count_streams. intros nl [<-|[<-|[]]]; reflexivity.
  - repeat constructor; cbn; intuition lia.
  - exists srcs, out. split; auto. exact (G 2 1 1 "b" 1 eq_refl eq_refl).
Qed.
Example C92_run_example : exists h (m : @simulator unit) i, zget (h_info h) (m_info m) = Some i /\ 0 <= sim_buffer i /\ 0 <= tot_samples i + 1 /\ state_at count_get (fun _ k => k) (h_src h) (m_sources m) (fun _ => 0) /\ NoDup (map snd (m_sources m)) /\ zlen (m_sources m) = 2.
Proof.
  exists (mkHeap [0; 0] [small_info 3]), (mkSimulator 0 tt [("a", 0); ("b", 1)]), (small_info 3). split; [reflexivity|]. split; [cbn; lia|]. split; [cbn; lia|]. split; [apply count_streams; intros nl [<-|[<-|[]]]; reflexivity|]. split; [repeat constructor; cbn; intuition lia|reflexivity].
Qed.
(** Two arrays that were given the same source object: each of them misses the samples the other one got, and which ones depends on
    the division of the requests, that is on the size of the buffer. *)
Theorem C92_shared_refuted : let s := [("a", 0); ("b", 0)] in let of_a (r : res (list Z * list (list (string * list Z)))) := match r with Ok (_, out) => flat_map (fun round => match round with (_, x) :: _ => x | [] => [] end) out | Err _ => [] end in
  state_at count_get (fun _ k => k) [0] s (fun _ => 0) /\ of_a (play_rounds count_get [0] s [2; 1; 1]) = [0; 1; 4; 6] /\ of_a (play_rounds count_get [0] s [1; 1; 1; 1]) = [0; 2; 4; 6].
Proof. split; [|split; vm_compute; reflexivity]. apply count_streams. intros nl [<-|[<-|[]]]; reflexivity. Qed.
End Examples.

(* ------------------------------------------------------------------ C93 *)
(** C93.  If figures are wanted, a new folder with the first free number is made and no other entry is touched. *)
Theorem C93_new plot_output time d : plot_output <> "none" ->
  exists n, let name := ("figs_" ++ time ++ "_" ++ py_str (Z.of_nat n))%string in
    create_fig_folder plot_output time (PathBase (Some d)) = Ok (PathBase (Some (d ++ [name])), Some name) /\ ~ In name d /\
    forall m, (m < n)%nat -> In ("figs_" ++ time ++ "_" ++ py_str (Z.of_nat m))%string d.
Proof.
  intros N. unfold create_fig_folder. destruct (String.eqb_spec plot_output "none"); [contradiction|]. destruct (C34_unique "figs_" time d) as (m & E & A & B). rewrite E. cbn [bind]. exists m. unfold folder in *. auto.
Qed.
Theorem C93_nothing plot_output time base : plot_output = "none" \/ base = NoBase -> create_fig_folder plot_output time base = Ok (base, None).
Proof. intros [-> | ->]; unfold create_fig_folder; [reflexivity|]. destruct (String.eqb plot_output "none"); auto. Qed.
(** any number of folders made one after the other, at any times, by any programs that keep the folders *)
Fixpoint make_folders (plot_output : string) (times : list string) (base : base_folder) : res (base_folder * list string) :=
  match times with
  | [] => Ok (base, [])
  | t :: r => x <- create_fig_folder plot_output t base ;; y <- make_folders plot_output r (fst x) ;;
              Ok (fst y, match snd x with Some n => n :: snd y | None => snd y end)
  end.
Theorem C93_distinct plot_output times d : plot_output <> "none" -> NoDup d ->
  exists names, make_folders plot_output times (PathBase (Some d)) = Ok (PathBase (Some (d ++ names)), names) /\ zlen names = zlen times /\ NoDup (d ++ names).
Proof.
  intros N. revert d. induction times as [|t times IH]; intros d ND; cbn [make_folders].
  - exists []. rewrite app_nil_r. auto.
  - destruct (C93_new t d N) as (n & E & A & _). cbv zeta in E. set (name := ("figs_" ++ t ++ "_" ++ py_str (Z.of_nat n))%string) in *. rewrite E. cbn [bind fst snd]. destruct (IH (d ++ [name])) as (names & E2 & L & ND2); [apply NoDup_snoc; auto|]. rewrite E2. cbn [bind fst snd]. exists (name :: names). rewrite <- app_assoc in *. cbn [app] in *. split; auto. split; auto. rewrite !zlen_cons. lia.
Qed.
(** A base folder given as str always fails, and so does one that does not exist yet. *)
Theorem C93_str_refuted plot_output time : plot_output <> "none" -> create_fig_folder plot_output time StrBase = Err AttributeError.
Proof. intros N. unfold create_fig_folder. destruct (String.eqb_spec plot_output "none"); [contradiction|auto]. Qed.
Theorem C93_missing_refuted plot_output time : plot_output <> "none" -> create_fig_folder plot_output time (PathBase None) = Err FileNotFoundError.
Proof. intros N. unfold create_fig_folder. destruct (String.eqb_spec plot_output "none"); [contradiction|]. destruct (C34_unique "figs_" time []) as (m & E & _). rewrite E. auto. Qed.
Example C93_example : make_folders "pdf" ["t"; "u"; "t"] (PathBase (Some ["figs_t_1"])) = Ok (PathBase (Some ["figs_t_1"; "figs_t_0"; "figs_u_0"; "figs_t_2"]), ["figs_t_0"; "figs_u_0"; "figs_t_2"]).
Proof. vm_compute. reflexivity. Qed.
Example C93_distinct_example : "pdf" <> "none" /\ NoDup ["figs_t_1"]. Proof. split; [discriminate|repeat constructor; auto]. Qed.

(* ------------------------------------------------------------------ C94 *)
Section Metadata.
Context {J : Type}.
Notation file := (json_file J).
(** the file after a list of additions, if nothing fails *)
Fixpoint additions (f : file) (ds : list (dict J)) : res file :=
  match ds with
  | [] => Ok f
  | d :: r => let '(states, o) := add_to_sim_metadata f d in _ <- o ;; additions (last states f) r
  end.
(** the value of the last dictionary that has the key *)
Definition last_value (k : string) (ds : list (dict J)) : option J := fold_left (fun v d => match dget d k with Some x => Some x | None => v end) ds None.
Lemma merge_get (old new : dict J) k : NoDup (dkeys new) -> dget (merge old new) k = match dget new k with Some x => Some x | None => dget old k end.
Proof.
  unfold merge. revert old. induction new as [|[k0 v0] new IH]; intros old N; cbn [fold_left dget fst snd]; auto. cbn [dkeys map fst] in N. inversion N as [|? ? N1 N2]; subst. rewrite IH by auto. rewrite dget_dset. destruct (String.eqb_spec k k0) as [->|]; [|auto]. replace (dget new k0) with (@None J); auto. symmetry. apply dget_None. auto.
Qed.
(** C94.  Whatever is added in whatever order, the file holds for every key the value added last, and nothing is lost. *)
Theorem C94_merged (ds : list (dict J)) : ds <> [] -> (forall d, In d ds -> NoDup (dkeys d)) ->
  exists D, additions NoFile ds = Ok (Holds D) /\ forall k, dget D k = last_value k ds.
Proof.
  intros N0 N. unfold last_value.
  assert (G : forall ds old, (forall d, In d ds -> NoDup (dkeys d)) -> exists D, additions (Holds old) ds = Ok (Holds D) /\ forall k, dget D k = fold_left (fun v d => match dget d k with Some x => Some x | None => v end) ds (dget old k)).
  { clear. induction ds as [|d ds IH]; intros old N; cbn [additions add_to_sim_metadata]; [eauto|]. cbn [bind last]. destruct (IH (merge old d)) as (D & E & G); [intros; apply N; right; auto|]. exists D. split; auto. intros k. rewrite G. cbn [fold_left]. rewrite merge_get by (apply N; left; auto). auto. }
  destruct ds as [|d ds]; [contradiction|]. cbn [additions add_to_sim_metadata bind last]. destruct (G ds d) as (D & E & K); [intros; apply N; right; auto|]. exists D. split; auto. intros k. rewrite K. cbn [fold_left]. destruct (dget d k); auto.
Qed.
(** the processors' metadata: with distinct names (C33) every processor has its entry *)
Theorem C94_processors (ps : list (string * J)) : NoDup (map fst ps) -> write_processor_metadata ps = ps.
Proof.
  intros N. unfold write_processor_metadata. assert (G : forall l (front : dict J), NoDup (map fst (front ++ l)) -> fold_left (fun d kv => dset d (fst kv) (snd kv)) l front = front ++ l).
  { clear. induction l as [|[k v] l IH]; intros front N; cbn [fold_left]; [rewrite app_nil_r; auto|]. cbn [fst snd].
    assert (dget front k = None) as F. { apply dget_None. intros I. rewrite map_app in N. cbn [map fst] in N. apply NoDup_remove_2 in N. apply N. apply in_or_app. left. exact I. }
    rewrite (dset_new _ _ v F). rewrite IH by (rewrite <- app_assoc; auto). rewrite <- app_assoc. auto. }
  apply (G ps []). auto.
Qed.
(** If the process ends while the file is written, everything added before is lost and every later addition fails. *)
Theorem C94_crash_refuted (old d : dict J) : exists f, In f (fst (add_to_sim_metadata (Holds old) d)) /\ (forall D, f <> Holds D) /\ forall d2, snd (add_to_sim_metadata f d2) = Err ValueError.
Proof. exists Begun. split; [right; left; auto|]. split; [discriminate|auto]. Qed.
(** add_to_summary: the entry of the diagnostic is replaced, all others are kept *)
Theorem C94_summary (old : dict J) name v : exists D, last (fst (add_to_summary (Holds old) name v)) NoFile = Holds D /\ snd (add_to_summary (Holds old) name v) = Ok tt /\ forall k, dget D k = if String.eqb k name then Some v else dget old k.
Proof. eexists. split; [reflexivity|]. split; [reflexivity|]. intros k. apply dget_dset. Qed.
(** a new file gets the entry; an incomplete one is refused and left as it is *)
Theorem C94_summary_file name (v : J) : last (fst (add_to_summary NoFile name v)) NoFile = Holds [(name, v)] /\ snd (add_to_summary NoFile name v) = Ok tt /\
  (forall f, In f (fst (add_to_summary Begun name v)) -> f = Begun) /\ snd (add_to_summary Begun name v) = Err ValueError.
Proof. split; [reflexivity|]. split; [reflexivity|]. split; [|reflexivity]. intros f [<-|[]]. reflexivity. Qed.
End Metadata.
Example C94_example : additions NoFile [[("a", 1); ("b", 2)]; [("c", 3); ("a", 4)]] = Ok (Holds [("a", 4); ("b", 2); ("c", 3)]).
Proof. vm_compute. reflexivity. Qed.
Example C94_hypotheses : [[("a", 1); ("b", 2)]; [("c", 3); ("a", 4)]] <> [] /\ forall d, In d [[("a", 1); ("b", 2)]; [("c", 3); ("a", 4)]] -> NoDup (dkeys d).
Proof. split; [discriminate|]. intros d [<-|[<-|[]]]; repeat constructor; cbn; intuition discriminate. Qed.
Example C94_processors_example : NoDup (map fst [("p", 1); ("q", 2)]) /\ write_processor_metadata [("p", 1); ("p", 2)] = [("p", 2)].
Proof. split; [repeat constructor; cbn; intuition discriminate|reflexivity]. Qed.

(* ------------------------------------------------------------------ C95 *)
(** a possible result of datetime.now() in the years 1000 to 9999 *)
Definition valid (t : datetime) : Prop := 1000 <= year t <= 9999 /\ 1 <= month t <= 12 /\ 1 <= day t <= 31 /\ 0 <= hour t <= 23 /\ 0 <= minute t <= 59 /\ 0 <= second t <= 59 /\ 0 <= microsecond t <= 999999.
(** the number of the minute, with months of 31 days *)
Definition minutes (t : datetime) : Z := (((year t * 12 + (month t - 1)) * 31 + (day t - 1)) * 24 + hour t) * 60 + minute t.

Lemma compare_app a b x y : String.length a = String.length b -> String.compare (a ++ x) (b ++ y) = match String.compare a b with Eq => String.compare x y | c => c end.
Proof. revert b. induction a as [|c a IH]; intros [|e b] L; cbn in L; try discriminate; auto. cbn [append String.compare]. destruct (Ascii.compare c e); auto. Qed.
Definition two (n : Z) : string := zfill2 (py_str n).
Lemma two_ok : forall a b, 0 <= a <= 99 -> 0 <= b <= 99 -> String.length (two a) = 2%nat /\ String.compare (two a) (two b) = Z.compare a b.
Proof.
  assert (C : forallb (fun a => Nat.eqb (String.length (two a)) 2 && forallb (fun b => match String.compare (two a) (two b), Z.compare a b with Eq, Eq | Lt, Lt | Gt, Gt => true | _, _ => false end) (zrange 0 100))%bool (zrange 0 100) = true) by (vm_compute; reflexivity).
  intros a b Ha Hb. rewrite forallb_forall in C. specialize (C a ltac:(apply In_zrange; lia)). apply Bool.andb_true_iff in C as [C1 C2]. rewrite forallb_forall in C2. specialize (C2 b ltac:(apply In_zrange; lia)). split; [apply Nat.eqb_eq; auto|]. destruct (String.compare (two a) (two b)), (Z.compare a b); auto; discriminate.
Qed.
Lemma year_ok y : 1000 <= y <= 9999 -> py_str y = (two (y / 100) ++ two (y mod 100))%string.
Proof.
  assert (C : forallb (fun y => String.eqb (py_str y) (two (y / 100) ++ two (y mod 100))) (zrange 1000 10000) = true) by (vm_compute; reflexivity).
  intros H. rewrite forallb_forall in C. apply String.eqb_eq. apply C. apply In_zrange. lia.
Qed.
Lemma two_step a b x y : 0 <= a <= 99 -> 0 <= b <= 99 -> String.compare (two a ++ x) (two b ++ y) = match Z.compare a b with Eq => String.compare x y | c => c end.
Proof. intros Ha Hb. destruct (@two_ok a b Ha Hb) as [L E]. destruct (@two_ok b a Hb Ha) as [L2 _]. rewrite compare_app by congruence. rewrite E. auto. Qed.
Lemma sep_step x y : String.compare ("_" ++ x) ("_" ++ y) = String.compare x y.
Proof. reflexivity. Qed.
Definition fields (t : datetime) : list Z := [year t / 100; year t mod 100; month t; day t; hour t; minute t].
Fixpoint lex (a b : list Z) : comparison := match a, b with x :: a, y :: b => match Z.compare x y with Eq => lex a b | c => c end | _, _ => Eq end.
Lemma compare_times a b : valid a -> valid b -> String.compare (get_time_string a false) (get_time_string b false) = lex (fields a) (fields b).
Proof.
  intros (A1 & A2 & A3 & A4 & A5 & _) (B1 & B2 & B3 & B4 & B5 & _). unfold get_time_string. cbv iota zeta. rewrite (year_ok A1), (year_ok B1). fold (two (month a)) (two (day a)) (two (hour a)) (two (minute a)) (two (month b)) (two (day b)) (two (hour b)) (two (minute b)).
  rewrite <- !sapp_assoc. assert (0 <= year a / 100 <= 99 /\ 0 <= year a mod 100 <= 99 /\ 0 <= year b / 100 <= 99 /\ 0 <= year b mod 100 <= 99) as (Y1 & Y2 & Y3 & Y4) by (repeat split; try (apply Z.div_pos; lia); try (apply Z.mod_pos_bound; lia); try (apply Zlt_succ_le; apply Z.div_lt_upper_bound; lia); try (apply Zlt_succ_le; change (Z.succ 99) with 100; apply Z.mod_pos_bound; lia)).
  rewrite (two_step _ _ Y1 Y3), (two_step _ _ Y2 Y4). unfold fields, lex. destruct (Z.compare (year a / 100) (year b / 100)); auto. destruct (Z.compare (year a mod 100) (year b mod 100)); auto. rewrite sep_step, two_step by lia. destruct (Z.compare (month a) (month b)); auto. rewrite sep_step, two_step by lia. destruct (Z.compare (day a) (day b)); auto. rewrite sep_step, two_step by lia. destruct (Z.compare (hour a) (hour b)); auto.
  rewrite sep_step. destruct (@two_ok (minute a) (minute b)) as [_ E]; [lia|lia|]. rewrite E. destruct (Z.compare (minute a) (minute b)); auto.
Qed.
(** C95.  The names of the default kind, sorted as strings, are sorted by time, and equal only within the same minute. *)
Theorem C95_sorted a b : valid a -> valid b -> String.compare (get_time_string a false) (get_time_string b false) = Z.compare (minutes a) (minutes b).
Proof.
  intros VA VB. rewrite compare_times by auto. destruct VA as (A1 & A2 & A3 & A4 & A5 & _), VB as (B1 & B2 & B3 & B4 & B5 & _). unfold fields, lex, minutes.
  pose proof (Z.div_mod (year a) 100 ltac:(lia)) as DA. pose proof (Z.div_mod (year b) 100 ltac:(lia)) as DB. pose proof (Z.mod_pos_bound (year a) 100 ltac:(lia)). pose proof (Z.mod_pos_bound (year b) 100 ltac:(lia)).
  set (ya := year a / 100) in *. set (yb := year b / 100) in *. set (ra := year a mod 100) in *. set (rb := year b mod 100) in *. rewrite DA, DB in *. clear DA DB.
  destruct (Z.compare_spec ya yb); [|symmetry; apply Z.compare_lt_iff; lia|symmetry; apply Z.compare_gt_iff; lia].
  destruct (Z.compare_spec ra rb); [|symmetry; apply Z.compare_lt_iff; lia|symmetry; apply Z.compare_gt_iff; lia].
  destruct (Z.compare_spec (month a) (month b)); [|symmetry; apply Z.compare_lt_iff; lia|symmetry; apply Z.compare_gt_iff; lia].
  destruct (Z.compare_spec (day a) (day b)); [|symmetry; apply Z.compare_lt_iff; lia|symmetry; apply Z.compare_gt_iff; lia].
  destruct (Z.compare_spec (hour a) (hour b)); [|symmetry; apply Z.compare_lt_iff; lia|symmetry; apply Z.compare_gt_iff; lia].
  destruct (Z.compare_spec (minute a) (minute b)); symmetry; [apply Z.compare_eq_iff; lia|apply Z.compare_lt_iff; lia|apply Z.compare_gt_iff; lia].
Qed.
(** C95.  The numbers can be read from the name, in this order; all but the year have at least two digits. *)
Theorem C95_parts t detailed : valid t -> exists parts, get_time_string t detailed = String.concat "_" parts /\
  map py_int parts = map (@Ok Z) ([year t; month t; day t; hour t; minute t] ++ if detailed then [second t; microsecond t] else []) /\ Forall (fun p => (2 <= String.length p)%nat) parts.
Proof.
  intros (A1 & A2 & A3 & A4 & A5 & A6 & A7).
  assert (Small : forall n, 0 <= n <= 99 -> py_int (two n) = Ok n /\ (2 <= String.length (two n))%nat).
  { assert (C : forallb (fun n => match py_int (two n) with Ok m => m =? n | Err _ => false end && Nat.leb 2 (String.length (two n)))%bool (zrange 0 100) = true) by (vm_compute; reflexivity).
    intros n Hn. rewrite forallb_forall in C. specialize (C n ltac:(apply In_zrange; lia)). apply Bool.andb_true_iff in C as [C1 C2]. apply Nat.leb_le in C2. split; auto. destruct (py_int (two n)); [|discriminate]. f_equal. lia. }
  assert (Any : forall n, 0 <= n -> py_int (two n) = Ok n /\ (2 <= String.length (two n))%nat).
  { intros n Hn. destruct (Z_le_gt_dec n 99); [apply Small; lia|]. assert (L : (2 <= String.length (py_str n))%nat).
    { destruct (py_str n) as [|x [|y r]] eqn:Q; cbn [String.length]; [|exfalso|lia].
      - pose proof (py_int_str Hn) as K. rewrite Q in K. discriminate K.
      - pose proof (py_int_str Hn) as K. rewrite Q in K. unfold py_int in K. destruct (isdigit _) eqn:Di; [|discriminate]. injection K as K. cbn [digits_val] in K. cbn in Di. unfold is_digit in Di. lia. }
    unfold two, zfill2, slen. destruct (Z.ltb_spec (Z.of_nat (String.length (py_str n))) 2); [lia|]. split; [apply py_int_str; lia|exact L]. }
  assert (Year : py_int (py_str (year t)) = Ok (year t) /\ (2 <= String.length (py_str (year t)))%nat).
  { split; [apply py_int_str; lia|]. rewrite (year_ok A1). rewrite sapp_length. destruct (Small (year t / 100)) as [_ K]; [split; [apply Z.div_pos; lia|apply Zlt_succ_le; apply Z.div_lt_upper_bound; lia]|]. lia. }
  exists ([py_str (year t); two (month t); two (day t); two (hour t); two (minute t)] ++ if detailed then [two (second t); two (microsecond t)] else []).
  destruct Year as [Y1 Y2]. destruct (Any (month t) ltac:(lia)) as [M1 M2]. destruct (Any (day t) ltac:(lia)) as [D1 D2]. destruct (Any (hour t) ltac:(lia)) as [H1 H2].
  destruct (Any (minute t) ltac:(lia)) as [I1 I2]. destruct (Any (second t) ltac:(lia)) as [S1 S2]. destruct (Any (microsecond t) ltac:(lia)) as [U1 U2].
  unfold get_time_string. fold (two (month t)) (two (day t)) (two (hour t)) (two (minute t)) (two (second t)) (two (microsecond t)). destruct detailed; cbn [app String.concat map].
  - split; [rewrite <- !sapp_assoc; reflexivity|]. split; [rewrite Y1, M1, D1, H1, I1, S1, U1; reflexivity|repeat constructor; auto].
  - split; [reflexivity|]. split; [rewrite Y1, M1, D1, H1, I1; reflexivity|repeat constructor; auto].
Qed.
(** The microseconds of the detailed names are not padded, so that these names are not sorted. *)
Theorem C95_detailed_refuted : exists a b, valid a /\ valid b /\ minutes a = minutes b /\ second a = second b /\ microsecond a < microsecond b /\ String.compare (get_time_string a true) (get_time_string b true) = Gt.
Proof. exists (mkTime 2024 1 2 3 4 5 99), (mkTime 2024 1 2 3 4 5 100). unfold valid. cbn [year month day hour minute second microsecond]. repeat (split; [lia || reflexivity|]). vm_compute. reflexivity. Qed.
Example C95_example : get_time_string (mkTime 2024 1 2 3 4 5 99) false = "2024_01_02_03_04" /\ get_time_string (mkTime 2024 1 2 3 4 5 99) true = "2024_01_02_03_04_05_99" /\ valid (mkTime 2024 1 2 3 4 5 99) /\ valid (mkTime 2024 1 10 3 4 5 99) /\
  String.compare (get_time_string (mkTime 2024 1 2 3 4 5 99) false) (get_time_string (mkTime 2024 1 10 3 4 5 99) false) = Lt.
Proof. split; [vm_compute; reflexivity|]. split; [vm_compute; reflexivity|]. unfold valid. cbn [year month day hour minute second microsecond]. split; [lia|]. split; [lia|]. vm_compute. reflexivity. Qed.

Print Assumptions C91_isolated.
Print Assumptions C91_config_refuted.
Print Assumptions C92_pattern.
Print Assumptions C92_own.
Print Assumptions C92_run.
Print Assumptions C92_shared_refuted.
Print Assumptions C93_new.
Print Assumptions C93_nothing.
Print Assumptions C93_distinct.
Print Assumptions C93_str_refuted.
Print Assumptions C93_missing_refuted.
Print Assumptions C94_merged.
Print Assumptions C94_processors.
Print Assumptions C94_crash_refuted.
Print Assumptions C94_summary.
Print Assumptions C94_summary_file.
Print Assumptions C95_parts.
Print Assumptions C95_sorted.
Print Assumptions C95_detailed_refuted.
