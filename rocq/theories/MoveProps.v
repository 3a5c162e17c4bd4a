(** C76: the positions a moving array has recorded after a run. *)
Require Import Verif.PyBase Verif.PyLemmas Verif.ConfigModel Verif.ArrayModel Verif.ArraySpec Verif.ArrayProofs Verif.ArrayPaths Verif.LoggerModel Verif.LoggerSpec
  Verif.SimModel Verif.SimSpec Verif.SimRefine Verif.SimRun Verif.SimDiag Verif.SimLoop Verif.SignalSpec Verif.SignalPass Verif.SignalRun Verif.SignalLaw Verif.RunSpec Verif.DiagModel Verif.DiagSpec Verif.DiagProofs
  Verif.Demo Verif.DemoRun Verif.DemoSpy Verif.SignalProps.
Set Implicit Arguments.
Arguments Z.add : simpl never.
Arguments Z.sub : simpl never.
Arguments Z.mul : simpl never.

(** the times before n at which positions are updated *)
Definition update_times (freq n : Z) : list Z := filter (fun t => t mod freq =? 0) (zrange 0 n).

Section Run.
Context {E : AEnv} {S : SEnv}.
Notation arr := (arr Pos Src).

(** the array a after the updates at the times ts, b being it before them: a moving array has noted all times and its
    positions then, and is where it was at the last of them; an array that does not move has noted nothing *)
Definition followed (ts : list Z) (b a : arr) : Prop :=
  a_traj a = a_traj b /\
  match a_traj b with
  | Some tr => a_time_all a = a_time_all b ++ ts /\ a_pos_all a = a_pos_all b ++ map tr ts /\ a_pos a = last (map tr ts) (a_pos b)
  | None => a_time_all a = a_time_all b /\ a_pos_all a = a_pos_all b /\ a_pos a = a_pos b
  end.
Definition all_followed (ts : list Z) (c c' : coll E) : Prop :=
  (forall k, dget (c_arrays c) k = None <-> dget (c_arrays c') k = None) /\
  forall k b a, the_array c k b -> the_array c' k a -> followed ts b a.

Lemma followed_refl b : followed [] b b.
Proof. unfold followed. destruct (a_traj b); rewrite ?app_nil_r; auto. Qed.
Lemma followed_source ts b a s : followed ts b a -> followed ts b (with_source a s).
Proof. unfold followed, with_source. cbn. auto. Qed.
Lemma followed_update ts b a g : followed ts b a -> followed (ts ++ [g]) b (arr_update a g).
Proof.
  unfold followed, arr_update. intros [H1 H2]. rewrite H1. destruct (a_traj b) as [tr|] eqn:Q; cbn; auto.
  destruct H2 as (A & B & C). rewrite A, B, map_app. cbn [map]. rewrite !app_assoc. split; auto. split; auto. split; auto.
  destruct (map tr ts); cbn [app last]; auto. rewrite <- (last_last (p :: l) (tr g) (a_pos b)) at 1. reflexivity.
Qed.

Lemma run_free_followed ts c x y n names : forall c1 s1 c2 s2, coll_ok c1 -> all_followed ts c c1 -> foldM (run_free x y n) (c1, s1) names = Ok (c2, s2) ->
  coll_ok c2 /\ all_followed ts c c2 /\ c_info c2 = c_info c1.
Proof.
  induction names as [|k names IH]; intros c1 s1 c2 s2 O [F1 F2] H; cbn [foldM] in H; [injection H as -> ->; split; auto; split; auto; split; auto|].
  apply bind_ok in H as ([c3 s3] & H1 & H). unfold run_free in H1. apply bind_ok in H1 as (a & Ha & H1). destruct (a_source a) as [src|]; [|discriminate].
  destruct (src_get src n) as [src' xs]. apply bind_ok in H1 as (s' & _ & H1). unfold dgetE in Ha. destruct (dget (c_arrays c1) k) as [a'|] eqn:Hk; [|discriminate]. injection Ha as ->.
  fold (with_source a src') in H1. injection H1 as <- <-. apply IH in H as (O2 & F & Hi).
  - split; auto.
  - apply coll_ok_source; auto.
  - split.
    + intros k'. cbn [c_arrays set_arrays]. rewrite dget_dset. destruct (String.eqb_spec k' k); [subst|apply F1]. rewrite F1, Hk. split; intros; discriminate.
    + intros k' b a' Hb. unfold the_array. cbn [c_arrays set_arrays]. rewrite dget_dset. destruct (String.eqb_spec k' k); [subst|apply F2; auto].
      intros K. injection K as <-. apply followed_source. eapply F2; eauto.
Qed.

Lemma update_followed i ts c g c1 c2 : coll_ok c1 -> c_info c1 = Some i -> all_followed ts c c1 -> update c1 g = Ok c2 ->
  coll_ok c2 /\ c_info c2 = Some i /\ array_update_freq i <> 0 /\ all_followed (ts ++ if g mod array_update_freq i =? 0 then [g] else []) c c2.
Proof.
  intros O Hi [F1 F2] H. destruct (update_ok _ O Hi H) as (Hf & U1 & U2 & _ & _ & _ & U3 & _ & U4). split; auto. split; [congruence|]. split; auto.
  destruct (Z.eqb_spec (g mod array_update_freq i) 0) as [Hz|Hz].
  - destruct (U2 Hz) as (l & P & _ & _ & _ & _ & L). unfold all_followed, the_array. rewrite L. unfold moved_arrays. split.
    + intros k. rewrite (dget_map (fun a => arr_update a g)), F1. destruct (dget (c_arrays c1) k); cbn; split; intros; auto; discriminate.
    + intros k b a Hb. rewrite (dget_map (fun a => arr_update a g)). destruct (dget (c_arrays c1) k) as [a1|] eqn:Ha; cbn; [|discriminate].
      intros K. injection K as <-. apply followed_update. eapply F2; eauto.
  - rewrite (U1 Hz), app_nil_r. split; auto.
Qed.

Lemma update_times_S f n : 0 <= n -> update_times f (n + 1) = update_times f n ++ if n mod f =? 0 then [n] else [].
Proof.
  intros Hn. unfold update_times. rewrite zrange_snoc by lia. replace (n + 1 - 1) with n by lia. rewrite filter_app. cbn [filter]. reflexivity.
Qed.

Variables (i j : info) (c : coll E) (procs : list (@proc E S)) (diags : dict (diag D)).

Lemma step_followed mbs st st' : 0 <= sm_n st -> coll_ok (sm_coll st) -> c_info (sm_coll st) = Some j -> all_followed (update_times (array_update_freq j) (sm_n st)) c (sm_coll st) ->
  sim_step i mbs st = Ok st' -> sm_n st' = sm_n st + 1 /\ coll_ok (sm_coll st') /\ c_info (sm_coll st') = Some j /\ array_update_freq j <> 0 /\
    all_followed (update_times (array_update_freq j) (sm_n st')) c (sm_coll st').
Proof.
  intros Hn O Hi F H. unfold sim_step in H. apply bind_ok in H as (c1 & Hc & H). destruct (update_followed (sm_n st) O Hi F Hc) as (O1 & Hi1 & Hf & F1).
  rewrite <- update_times_S in F1 by auto.
  apply bind_ok in H as ([ps s] & _ & H). apply bind_ok in H as ([[c2 s2] fs2] & Hp & H).
  unfold propagate in Hp. apply bind_ok in Hp as ([c3 s3] & Hr & Hp). apply bind_ok in Hp as (cs & _ & Hp). apply bind_ok in Hp as (fs & _ & Hp). apply bind_ok in Hp as (fss & _ & Hp).
  injection Hp as <- _ _. destruct (@run_free_followed _ _ _ _ _ _ _ _ _ _ O1 F1 Hr) as (O3 & F3 & Hi3).
  cbv zeta in H. apply bind_ok in H as (cp & _ & H). apply bind_ok in H as (dg & _ & H). apply bind_ok in H as (do & _ & H). injection H as <-.
  cbn [sm_n sm_coll]. split; auto. split; auto. split; [congruence|]. auto.
Qed.
Lemma loop_followed mbs : forall fuel st st', 0 <= sm_n st -> coll_ok (sm_coll st) -> c_info (sm_coll st) = Some j -> all_followed (update_times (array_update_freq j) (sm_n st)) c (sm_coll st) ->
  sim_loop i mbs fuel st = Ok st' -> sm_n st' = Z.max (sm_n st) (tot_samples i + mbs) /\ all_followed (update_times (array_update_freq j) (sm_n st')) c (sm_coll st').
Proof.
  induction fuel as [|k IH]; intros st st' Hn O Hi F H; cbn [sim_loop] in H; destruct (Z.ltb_spec (sm_n st) (tot_samples i + mbs)).
  - discriminate.
  - injection H as <-. split; auto. lia.
  - apply bind_ok in H as (st1 & H1 & H). destruct (step_followed _ _ Hn O Hi F H1) as (N1 & O1 & I1 & _ & F1).
    apply IH in H as [N2 F2]; auto; [|lia]. split; auto. lia.
  - injection H as <-. split; auto. lia.
Qed.

(** C76.  After a run every moving array has noted all multiples of the update frequency among the steps 0 .. n-1 of the
    run, where n is the number of samples plus the block size (a quarter of the buffer without a processor), in order and once each, with its positions at these
    times; its own position is the last of them.  Arrays that do not move are unchanged. *)
Theorem C76_history st : coll_ok c -> c_info c = Some j -> run_simulation i c procs diags = Ok st ->
  let n := Z.max 0 (tot_samples i + match procs with [] => sim_buffer i / 4 | p :: _ => pr_bs p end) in
  (forall k, dget (c_arrays c) k = None <-> dget (c_arrays (sm_coll st)) k = None) /\
  forall k b a, the_array c k b -> the_array (sm_coll st) k a -> followed (update_times (array_update_freq j) n) b a.
Proof.
  intros O Hi H n. unfold run_simulation in H. apply bind_ok in H as (s0 & H0 & H). cbv zeta in H. apply bind_ok in H as (s1 & H1 & H). apply bind_ok in H as (do & _ & H). injection H as <-. cbn [sm_coll].
  unfold prepare_simulation in H0. destruct (Z.ltb_spec 1 (zlen procs)) as [|One]; [discriminate|]. apply bind_ok in H0 as (sg & _ & H0). apply bind_ok in H0 as (sg' & _ & H0). apply bind_ok in H0 as (fs & _ & H0).
  apply bind_ok in H0 as ([[c1 s2] fs1] & Hp & H0). injection H0 as <-. unfold prop_prepare in Hp. cbv zeta in Hp. apply bind_ok in Hp as ([c3 s3] & Hr & Hp).
  apply bind_ok in Hp as (cs & _ & Hp). apply bind_ok in Hp as (fss & _ & Hp). injection Hp as <- _ _.
  assert (F0 : all_followed [] c c) by (split; [tauto|]; intros k b a Hb Ha; unfold the_array in *; rewrite Hb in Ha; injection Ha as <-; apply followed_refl).
  destruct (@run_free_followed _ _ _ _ _ _ _ _ _ _ O F0 Hr) as (O3 & F3 & Hi3).
  assert (F4 : all_followed (update_times (array_update_freq j) 0) c c3) by (unfold update_times; rewrite zrange_empty by lia; exact F3).
  assert (M : max_block_size i procs = match procs with [] => sim_buffer i / 4 | p :: _ => pr_bs p end) by (destruct procs as [|p [|q r]]; [reflexivity|reflexivity|pose proof (zlen_nonneg r); rewrite !zlen_cons in One; lia]). subst n. rewrite <- M.
  apply loop_followed in H1; cbn [sm_n sm_coll]; [|lia|exact O3|congruence|exact F4]. destruct H1 as [N F]. cbn [sm_n] in N. rewrite <- N. exact F.
Qed.
(** the update times are the multiples of the frequency in range, in increasing order *)
Theorem C76_times f n : f <> 0 -> (forall t, In t (update_times f n) <-> 0 <= t < n /\ (f | t)) /\ increasing (update_times f n).
Proof.
  intros Hf. split.
  - intros t. unfold update_times. rewrite filter_In, In_zrange, Z.eqb_eq, Z.mod_divide by auto. reflexivity.
  - unfold update_times. apply increasing_filter. clear. destruct (Z.le_gt_cases n 0); [rewrite zrange_empty by lia; constructor|].
    generalize 0 as a. intros a. destruct (Z.le_gt_cases n a); [rewrite zrange_empty by lia; constructor|].
    remember (Z.to_nat (n - a)) as k eqn:Hk. revert a Hk H0. induction k as [|k IH]; intros a Hk Ha; [lia|]. rewrite zrange_cons by lia. constructor.
    + destruct (Z.eq_dec (a + 1) n); [rewrite zrange_empty by lia; constructor|]. apply IH; lia.
    + apply Forall_forall. intros x Hx. apply In_zrange in Hx. lia.
Qed.
End Run.

Section Examples.
Local Open Scope string_scope.
Local Existing Instances demo demo_d spy_s.
Let i1 := run_info 10 5 false false.
(** the run of C09_example: 12 samples, block size 3, updates every 4 samples; 15 steps *)
Example C76_history_meets : exists c diags st inf a, coll_ok c /\ c_info c = Some inf /\ run_simulation i1 c [sspy 3 5] diags = Ok st /\ the_array c "mic" a /\ a_traj a <> None.
Proof. destruct C09_example as (c & diags & st & inf & A & _ & R & I & _ & _ & a & Ha & T). exists c, diags, st, inf, a. split; [exact (ex_coll A)|]. do 3 (split; [assumption|]). assumption. Qed.
Example C76_values : get (spy_run i1 (room (Some (fun t => t))) 3 5) (fun st => match dget (c_arrays (sm_coll st)) "mic" with Some a => (a_time_all a, a_pos_all a, a_pos a) | None => ([], [], 0) end)
  = Some ([0; 4; 8; 12], [0; 4; 8; 12], 12).
Proof. vm_compute. reflexivity. Qed.
Example C76_times_meets : 4 <> 0 /\ update_times 4 15 = [0; 4; 8; 12].
Proof. split; [discriminate|reflexivity]. Qed.
End Examples.

Print Assumptions C76_history.
Print Assumptions C76_times.
