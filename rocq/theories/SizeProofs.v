(** Array set-up, updates and the reference simulator do not look at tot_samples, sim_buffer and sim_chunk_size; set-up and updates
    not at save_source_contributions either. *)
Require Import Verif.PyBase Verif.PyLemmas Verif.ConfigModel Verif.ArrayModel Verif.ArraySpec Verif.LoggerModel
  Verif.SimModel Verif.SimSpec Verif.SimRefine Verif.SimRun Verif.SimDiag Verif.SimLoop.
Set Implicit Arguments.
Arguments Z.add : simpl never.
Arguments Z.sub : simpl never.

(** the same settings with other values of tot_samples, sim_buffer, sim_chunk_size and save_source_contributions *)
Definition retune (ft fb fc : Z -> Z) (fs : bool -> bool) (i : info) : info :=
  mkInfo (ft (tot_samples i)) (fb (sim_buffer i)) (fc (sim_chunk_size i)) (start_sources_before_0 i) (fs (save_source_contributions i)) (array_update_freq i) (samplerate i) (c_sound i)
    (spatial_dims i) (reverb i) (room_size i) (room_center i) (rt60 i) (max_room_ir_length i) (randomized_ism i) (extra_delay i)
    (highpass_cutoff i) (export_frequency i) (plot_output i) (output_smoothing i) (auto_save_load i).
(** the same arrays, set up with such settings *)
Definition retune_coll {E : AEnv} (ft fb fc : Z -> Z) (fs : bool -> bool) (c : coll E) : coll E :=
  mkColl (c_arrays c) (c_mic c) (c_src c) (c_free c) (c_paths c) (c_ptypes c) (option_map (retune ft fb fc fs) (c_info c)) (c_rng c).
(** other sizes *)
Definition resize (B C : Z) : info -> info := retune (fun T => T) (fun _ => B) (fun _ => C) (fun b => b).
Definition resize_coll {E : AEnv} (B C : Z) : coll E -> coll E := retune_coll (fun T => T) (fun _ => B) (fun _ => C) (fun b => b).
(** contributions on or off *)
Definition switch (b : bool) : info -> info := retune (fun T => T) (fun B => B) (fun C => C) (fun _ => b).
Definition switch_coll {E : AEnv} (b : bool) : coll E -> coll E := retune_coll (fun T => T) (fun B => B) (fun C => C) (fun _ => b).
(** another length *)
Definition lengthen (T : Z) : info -> info := retune (fun _ => T) (fun B => B) (fun C => C) (fun b => b).
Definition lengthen_coll {E : AEnv} (T : Z) : coll E -> coll E := retune_coll (fun _ => T) (fun B => B) (fun C => C) (fun b => b).

Section Resize.
Context {E : AEnv} {S : SEnv}.
Variables (ft fb fc : Z -> Z) (fs : bool -> bool).
Notation rc := (retune_coll ft fb fc fs).
Notation "a ~~ b" := (res_rel (fun x y : coll E => x = rc y) a b) (at level 70).

Lemma update_path_resize c s m : update_path (rc c) s m ~~ update_path c s m.
Proof.
  unfold update_path. cbn [c_ptypes retune_coll]. apply bind_rel_eq. intros rv _. apply bind_rel_eq. intros _ _. change (c_info (rc c)) with (option_map (retune ft fb fc fs) (c_info c)). destruct (c_info c) as [i|] eqn:Q; cbn [option_map]; [|simpl; auto].
  change (create_path (retune ft fb fc fs i)) with (create_path i). change (c_rng (rc c)) with (c_rng c). change (c_paths (rc c)) with (c_paths c). apply bind_rel_eq. intros gp _. apply bind_rel_eq. intros ps _. reflexivity.
Qed.
Lemma update_changed_resize c c' l k : c' = rc c ->
  res_rel (fun x y => fst x = rc (fst y) /\ snd x = snd y) (update_changed (c', l) k) (update_changed (c, l) k).
Proof.
  intros ->. unfold update_changed. cbn [c_arrays retune_coll]. apply bind_rel_eq. intros a _.
  eapply bind_rel with (R := fun x y => x = rc y); [|intros x y ->; simpl; auto]. destruct (is_mic a).
  - change (sources (rc c)) with (sources c). apply bind_rel_eq. intros ss _.
    eapply bind_rel with (R := fun x y => x = rc y); [|intros x y ->; destruct ss; simpl; auto].
    apply foldM_rel; auto. intros x y s _ ->. destruct (negb _); [apply update_path_resize|simpl; auto].
  - destruct (is_source a); [|simpl; auto]. change (mics (rc c)) with (mics c). apply bind_rel_eq. intros ms _.
    apply foldM_rel; auto. intros x y m _ ->. destruct (negb _); [apply update_path_resize|simpl; auto].
Qed.
Lemma update_resize c g : update (rc c) g ~~ update c g.
Proof.
  unfold update. change (c_info (rc c)) with (option_map (retune ft fb fc fs) (c_info c)). destruct (c_info c) as [i|] eqn:Q; cbn [option_map]; [|simpl; auto]. change (array_update_freq (retune ft fb fc fs i)) with (array_update_freq i).
  destruct (_ =? 0); [simpl; auto|]. destruct (negb _); [simpl; auto|].
  eapply bind_rel with (R := fun x y => fst x = rc (fst y) /\ snd x = snd y); [|intros x y (Hc & _); simpl; exact Hc].
  apply (foldM_rel (fun x y => fst x = rc (fst y) /\ snd x = snd y)).
  - intros [x l] [y l'] k _ [Hc Hl]. cbn [fst snd] in Hc, Hl. subst l'. apply update_changed_resize. auto.
  - simpl. split; auto.
Qed.
Lemma setup_one_resize i c c' sm : c' = rc c -> setup_one (retune ft fb fc fs i) c' sm ~~ setup_one i c sm.
Proof.
  intros ->. unfold setup_one. cbn [c_ptypes c_rng c_paths retune_coll]. apply bind_rel_eq. intros rv _. destruct (negb _); [|simpl; auto].
  change (create_path (retune ft fb fc fs i)) with (create_path i). apply bind_rel_eq. intros gp _. apply bind_rel_eq. intros ps _. reflexivity.
Qed.
Lemma setup_resize i c : setup_ir c (retune ft fb fc fs i) ~~ setup_ir c i.
Proof.
  unfold setup_ir. change (calc_rir_parameters (set_info c (retune ft fb fc fs i))) with (calc_rir_parameters (set_info c i)). apply bind_rel_eq. intros u _.
  change (mic_src_combos (set_info c (retune ft fb fc fs i))) with (mic_src_combos (set_info c i)). apply bind_rel_eq. intros cs _.
  apply foldM_rel; auto. intros x y sm _ ->. apply setup_one_resize; auto.
Qed.

(** references that differ in the sizes stored with the arrays only *)
Definition same_ref (r r' : @ref E S) : Prop := r_coll r = rc (r_coll r') /\ r_tl r = r_tl r' /\ r_flt r = r_flt r' /\ r_procs r = r_procs r'.
Lemma ref_free_resize ds t n c c' tl k : c' = rc c ->
  res_rel (fun x y => fst x = rc (fst y) /\ snd x = snd y) (ref_free ds t n (c', tl) k) (ref_free ds t n (c, tl) k).
Proof.
  intros ->. unfold ref_free. cbn [c_arrays retune_coll]. apply bind_rel_eq. intros a _. destruct (a_source a); [|simpl; auto]. destruct (src_get _ _) as [src xs].
  apply bind_rel_eq. intros tl' _. simpl. split; auto.
Qed.
Lemma ref_frees_resize ds t n c c' tl l : c' = rc c ->
  res_rel (fun x y => fst x = rc (fst y) /\ snd x = snd y) (foldM (ref_free ds t n) (c', tl) l) (foldM (ref_free ds t n) (c, tl) l).
Proof.
  intros Hc. apply (foldM_rel (fun x y => fst x = rc (fst y) /\ snd x = snd y)); [|simpl; auto].
  intros [x u] [y v] k _ [A1 A2]. cbn [fst snd] in *. subst v. apply ref_free_resize; auto.
Qed.
Lemma ref_step_resize ct ds g r r' : same_ref r r' -> res_rel same_ref (ref_step ct ds g r) (ref_step ct ds g r').
Proof.
  intros (A1 & A2 & A3 & A4). unfold ref_step. rewrite A1, A2, A3, A4. eapply bind_rel; [apply update_resize|]. intros c c' ->.
  apply bind_rel_eq. intros [ps tl] _. change (c_free (rc c')) with (c_free c').
  eapply bind_rel; [apply ref_frees_resize; reflexivity|]. intros [c1 tl1] [c2 tl2] [B1 B2]. cbn [fst snd] in *. subst c1 tl1.
  change (mic_src_combos (rc c2)) with (mic_src_combos c2). apply bind_rel_eq. intros cs _. change (refresh_pair (rc c2)) with (refresh_pair c2). apply bind_rel_eq. intros fl _. apply bind_rel_eq. intros q _.
  simpl. repeat split; auto.
Qed.
Lemma ref_steps_resize ct ds n r r' : same_ref r r' -> res_rel same_ref (ref_steps ct ds n r) (ref_steps ct ds n r').
Proof.
  intros H. induction n as [|n IH]; cbn [ref_steps]; [simpl; auto|]. eapply bind_rel; [exact IH|]. intros a b Hab. apply ref_step_resize; auto.
Qed.
Lemma ref_prepare_resize ct early ds c procs : res_rel same_ref (ref_prepare ct early ds (rc c) procs) (ref_prepare ct early ds c procs).
Proof.
  unfold ref_prepare. change (filters_init (rc c)) with (filters_init c). apply bind_rel_eq. intros fl _. change (c_free (rc c)) with (c_free c). destruct early as [n|].
  all: eapply bind_rel; [apply ref_frees_resize; reflexivity|]; intros [c1 tl1] [c2 tl2] [B1 B2]; cbn [fst snd] in *; subst c1 tl1.
  all: change (mic_src_combos (rc c2)) with (mic_src_combos c2); apply bind_rel_eq; intros cs _; apply bind_rel_eq; intros q _; simpl; repeat split; auto.
Qed.
Lemma ref_run_resize ct early c procs n : res_rel same_ref (ref_run ct early (rc c) procs n) (ref_run ct early c procs n).
Proof.
  unfold ref_run. change (ref_dims ct (rc c) procs) with (ref_dims ct c procs). apply bind_rel_eq. intros ds _.
  eapply bind_rel; [apply ref_prepare_resize|]. intros a b Hab. apply ref_steps_resize; auto.
Qed.
End Resize.

(** later steps do not change what has been computed *)
Section Prefix.
Context {E : AEnv} {S : SEnv}.
Lemma ref_step_bs ct ds g (r r' : @ref E S) : ref_step ct ds g r = Ok r' -> Forall (fun p => 0 <= pr_bs p) (r_procs r) -> Forall (fun p => 0 <= pr_bs p) (r_procs r').
Proof.
  unfold ref_step. intros H HF. apply bind_ok in H as (c & _ & H). apply bind_ok in H as ([ps tl] & H1 & H). apply bind_ok in H as ([c2 tl2] & _ & H).
  apply bind_ok in H as (cs & _ & H). apply bind_ok in H as (fs & _ & H). apply bind_ok in H as (ft & _ & H). inversion H; subst; clear H. cbn [r_procs].
  apply ref_procs_static in H1 as (l' & E1 & E2). cbn [fst app] in E1. subst l'.
  apply Forall_forall. intros p Hp. apply (in_map (fun p => (pr_bs p, pr_hist p))) in Hp. rewrite E2 in Hp. apply in_map_iff in Hp as (q & Q & Hq). injection Q as Q1 Q2.
  rewrite Forall_forall in HF. rewrite <- ?Q1. specialize (HF _ Hq). lia.
Qed.
Lemma ref_steps_past ct ds (r0 : @ref E S) : Forall (fun p => 0 <= pr_bs p) (r_procs r0) -> forall k n r r', ref_steps ct ds n r0 = Ok r -> ref_steps ct ds (n + k) r0 = Ok r' ->
  forall nm t, t <= Z.of_nat n -> r_tl r' nm t = r_tl r nm t.
Proof.
  intros H0 k n r r' Hr Hr' nm t Ht.
  assert (HF : forall m q, ref_steps ct ds m r0 = Ok q -> Forall (fun p => 0 <= pr_bs p) (r_procs q)).
  { induction m as [|m IH]; cbn [ref_steps]; intros q Hq; [inversion Hq; subst; auto|]. apply bind_ok in Hq as (q1 & Q1 & Q2). eapply ref_step_bs; eauto. }
  revert r' Hr'. induction k as [|k IH]; intros r' Hr'.
  - rewrite Nat.add_0_r in Hr'. congruence.
  - replace (n + Datatypes.S k)%nat with (Datatypes.S (n + k)) in Hr' by lia. cbn [ref_steps] in Hr'. apply bind_ok in Hr' as (q & Q1 & Q2).
    rewrite (@ref_step_past _ _ _ _ _ _ _ (HF _ _ Q1) Q2) by lia. eapply IH; eauto.
Qed.
End Prefix.
