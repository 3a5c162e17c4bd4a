(** C107: what a microphone picks up does not depend on anything but the sources and the paths to it. *)
Require Import Verif.PyBase Verif.PyLemmas Verif.ConfigModel Verif.ArrayModel Verif.ArraySpec Verif.ArrayProofs Verif.ArrayPaths Verif.LoggerModel Verif.LoggerSpec Verif.LoggerProofs
  Verif.SimModel Verif.SimSpec Verif.SimRefine Verif.SimRun Verif.SimDiag Verif.SimLoop Verif.SignalSpec Verif.SignalPass Verif.SignalRun Verif.SignalInv Verif.RunSpec Verif.RunLaw Verif.DiagRun
  Verif.DiagModel Verif.DiagSpec Verif.DiagProofs Verif.DiagCtorModel Verif.DiagCtorProofs Verif.SaveProps Verif.ProcModel Verif.Demo Verif.DemoRun Verif.DemoSpy Verif.SignalProps Verif.ContribProps Verif.SessionModel Verif.SessionProps.
Set Implicit Arguments.
Arguments Z.add : simpl never.
Arguments Z.sub : simpl never.
Arguments Z.mul : simpl never.

Section Local.
Context {E : AEnv} {DE : DEnv}.
Variables PS0 D0 Out0 : Type.
Variable dsave0 : D0 -> option PS0 -> dict (list frame) -> Z * Z -> res D0.
Variable dout0 : D0 -> Z -> res Out0.
Local Instance LoS : SEnv := full dsave0 dout0.
(** two experiments *)
Variables (i i' : info) (c c' : coll E) (procs procs' : list (@proc E LoS)) (diags diags' : dict (diag D)) (st st' : sim).
Hypothesis HX : experiment i c procs.
Hypothesis HD : good_diags i diags.
Hypothesis HR : run_simulation i c procs diags = Ok st.
Hypothesis HX' : experiment i' c' procs'.
Hypothesis HD' : good_diags i' diags'.
Hypothesis HR' : run_simulation i' c' procs' diags' = Ok st'.

(** the source array s plays the same in both: it is a free source with the same generator and number of channels, or loudspeakers
    that are (known to be) driven by the same signal *)
Definition plays_same (s : string) : Prop :=
  (In s (c_free c) /\ In s (c_free c') /\ exists a a', the_array c s a /\ the_array c' s a' /\ a_num a' = a_num a /\ a_source a' = a_source a) \/
  (forall t, signals_of i' c' procs' s t = signals_of i c procs s t).
(** C107.  Two experiments with stationary arrays, which may differ in length, buffers, processors, diagnostics, settings and all other microphone arrays,
    have a microphone array m in common that hears the same sources through the same paths.  Then m records the same samples, as long as both last. *)
Theorem C107_local dn dn' m b b' : stationary c -> stationary c' ->
  start_sources_before_0 i' = start_sources_before_0 i -> (start_sources_before_0 i = true -> sim_buffer i' = sim_buffer i) ->
  c_src c' = c_src c -> (forall s, In s (c_src c) -> plays_same s /\ path_of c' s m = path_of c s m) ->
  In m (c_mic c) -> the_array c m b -> mic_untouched procs m -> In m (c_mic c') -> the_array c' m b' -> mic_untouched procs' m -> a_num b' = a_num b ->
  records i diags dn m (a_num b) -> records i' diags' dn' m (a_num b') ->
  exists x x', recording i st dn x /\ recording i' st' dn' x' /\ forall t, 0 <= t < tot_samples i -> t < tot_samples i' -> x' t = x t.
Proof.
  intros S1 S2 B1 B2 HS HP Hm Hb Hu Hm' Hb' Hu' Hn R1 R2. exists (signals_of i c procs m), (signals_of i' c' procs' m). pose proof (run_longer HX HD HR) as L1. pose proof (run_longer HX' HD' HR') as L2.
  split; [|split].
  - eapply (recorded_array HX HD HR); eauto.
  - eapply (recorded_array HX' HD' HR'); eauto.
  - intros t Ht Ht'. rewrite (mic_law HX HD HR Hm Hb S1), (untouched_silent HX HD HR t Hb Hu), (mic_law HX' HD' HR' Hm' Hb' S2), (untouched_silent HX' HD' HR' t Hb' Hu') by lia. rewrite Hn, HS. f_equal.
    apply map_ext_in. intros s Hs. destruct (HP _ Hs) as [Q ->]. apply response_ext. intros u Hut. destruct Q as [(F1 & F2 & a & a' & A1 & A2 & A3 & A4)|Q]; [|apply Q].
    destruct (free_law HX HD HR F1 A1) as (src & Q1 & Q2). destruct (free_law HX' HD' HR' F2 A2) as (src' & Q1' & Q2'). rewrite Q2, Q2' by lia. rewrite A4, Q1 in Q1'. injection Q1' as <-. rewrite A3. f_equal.
    unfold early_start. rewrite B1. destruct (start_sources_before_0 i); [rewrite B2 by reflexivity|]; reflexivity.
Qed.
End Local.

(* ------------------------------------------------------------------ paths *)
Section Paths.
Context {E : AEnv}.
(** C107.  The path of a pair of arrays is made from these two alone, provided that it is not drawn at random and the image source method is used without
    randomisation: two collections which contain the two arrays and give the pair the same type agree on it after setup_ir with the same settings,
    whatever other arrays they have.  (With random numbers the claim is false, see C107_random_refuted.) *)
Theorem C107_paths (Q Q' : arr Pos Src -> Prop) (c c' d d' : coll E) i s m a b t : built Q c -> built Q' c' -> setup_ir c i = Ok d -> setup_ir c' i = Ok d' ->
  In s (c_src c) -> In m (c_mic c) -> the_array c s a -> the_array c m b -> the_array c' s a -> the_array c' m b ->
  lookup2 (c_ptypes c) s m = Some t -> lookup2 (c_ptypes c') s m = Some t -> t <> "modified"%string -> t <> "random"%string -> randomized_ism i = false ->
  (forall par g g' x y h p h' p', rp_random par = false -> ism3d par g x y = Ok (h, p) -> ism3d par g' x y = Ok (h', p') -> p = p') ->
  exists p, lookup2 (c_paths d) s m = Some p /\ lookup2 (c_paths d') s m = Some p.
Proof.
  intros B B' HF HS Ha Hb Hx Hy Hx' Hy' Ht Ht' Nm Nr HRi HD. pose proof (built_ok B) as O. pose proof (built_ok B') as O'.
  destruct (setup_ir_ok _ O' HS) as (cs' & P' & Hc' & HR' & HN' & HL' & _ & A' & T' & _). destruct (setup_ir_ok _ O HF) as (cs & P & Hc & HRg & HN & HLf & _ & A & T & _).
  apply (src_names _ O) in Ha as (x & X & Kx). apply (mic_names _ O) in Hb as (y & Y & Ky). assert (x = a) by (unfold the_array in *; congruence). assert (y = b) by (unfold the_array in *; congruence). subst x y.
  assert (En : a_name a = s) by (apply (ok_key O); auto). assert (Em : a_name b = m) by (apply (ok_key O); auto).
  destruct (regenerate_values _ _ _ _ _ HRg HN) as [R1 _]. destruct (regenerate_values _ _ _ _ _ HR' HN') as [R1' _].
  destruct (combos_names O Hc) as [_ HC]. destruct (combos_names O' Hc') as [_ HC'].
  destruct (R1 a b) as (t1 & g1 & g2 & p & Ht1 & Hcp & HPp). { apply filter_In. split; [apply HC; rewrite En, Em; auto|]. unfold generated. cbn [fst snd]. rewrite En, Em, Ht. apply negb_true_iff, String.eqb_neq. auto. }
  destruct (R1' a b) as (t2 & g3 & g4 & q & Ht2 & Hcq & HPq). { apply filter_In. split; [apply HC'; rewrite En, Em; auto|]. unfold generated. cbn [fst snd]. rewrite En, Em, Ht'. apply negb_true_iff, String.eqb_neq. auto. }
  rewrite En, Em in Ht1, HPp, Ht2, HPq. assert (t1 = t) by congruence. assert (t2 = t) by congruence. subst t1 t2. exists p. rewrite HLf, HL'. split; auto. rewrite HPq. f_equal. symmetry.
  eapply (@create_path_same E i i); [exact Nr|reflexivity|reflexivity|reflexivity|reflexivity|reflexivity|reflexivity|reflexivity|exact HRi|exact HD|exact Hcp|exact Hcq].
Qed.
End Paths.

(* ------------------------------------------------------------------ Examples *)
Section Examples.
Local Open Scope string_scope.
Local Existing Instances demo demo_d spy_s.
Let i1 := run_info 10 5 false true.
Let i2 := run_info 7 4 false true.
Definition at_place (nm : string) (k : kind) (src : option Z) (p : Z) : arr Z Z := mkArr nm k 1 p None ["omni"] src [] [].
Definition two : list (arr (@Pos demo) (@Src demo)) := [at_place "mic" KMic None 0; at_place "src" KFree (Some 5%Z) 2].
Definition three : list (arr (@Pos demo) (@Src demo)) := [at_place "mic2" KMic None 1; at_place "mic" KMic None 0; at_place "src" KFree (Some 5%Z) 2].
(** a processor that plays nothing *)
Definition mute (bs h : Z) : @proc demo spy_s := @mkProc demo spy_s bs h [] (fun s w => (s, [])) (0%Z, []).
Definition mute_run (i : info) (l : list (arr Pos Src)) (ps : list (Z * Z)) : res sim :=
  c <- coll_of i l ;; d <- recorders i ["mic"] ;; run_simulation i c (map (fun bh => mute (fst bh) (snd bh)) ps) d.
Lemma mute_meets i l ps : is_ok (mute_run i l ps) = true -> Forall (sized (fun _ => 1)) l -> supported i (map (fun bh => mute (fst bh) (snd bh)) ps) ->
  get (recorders i ["mic"]) (fun l => forallb (fun kd => diag_okb i (snd kd)) l) = Some true ->
  exists c d st, coll_of i l = Ok c /\ recorders i ["mic"] = Ok d /\ experiment i c (map (fun bh => mute (fst bh) (snd bh)) ps) /\ good_diags i d /\
    run_simulation i c (map (fun bh => mute (fst bh) (snd bh)) ps) d = Ok st.
Proof.
  intros H HF HS HG. apply is_ok_ex in H as [st H]. unfold mute_run in H. apply bind_ok in H as (c & Hc & H). apply bind_ok in H as (d & Hd & H).
  exists c, d, st. split; auto. split; auto. split; [|split; auto].
  - eapply coll_experiment; eauto. apply Forall_map, Forall_forall. intros x _ s w. cbn. constructor.
  - apply good_of; [destruct (recorders_get _ _ Hd) as [-> _]; repeat constructor; intros []|]. rewrite Hd in HG. cbn [get] in HG. exact (f_equal (fun o => match o with Some b => b | None => false end) HG).
Qed.
Lemma mute_untouched ps nm : mic_untouched (map (fun bh => mute (fst bh) (snd bh)) ps) nm.
Proof. apply Forall_map, Forall_forall. intros x _ s w. reflexivity. Qed.
(** a short experiment with one microphone and a longer one with another microphone, another buffer and a processor *)
Example C107_example : exists c d st c' d' st', experiment i1 c [] /\ good_diags i1 d /\ run_simulation i1 c [] d = Ok st /\
  experiment i2 c' [mute 2 3] /\ good_diags i2 d' /\ run_simulation i2 c' [mute 2 3] d' = Ok st' /\
  stationary c /\ stationary c' /\ start_sources_before_0 i2 = start_sources_before_0 i1 /\ (start_sources_before_0 i1 = true -> sim_buffer i2 = sim_buffer i1) /\
  c_src c' = c_src c /\ c_mic c = ["mic"] /\ c_mic c' = ["mic2"; "mic"] /\ the_array c "mic" (at_place "mic" KMic None 0) /\ the_array c' "mic" (at_place "mic" KMic None 0) /\
  records i1 d "mic" "mic" 1 /\ records i2 d' "mic" "mic" 1 /\ mic_untouched [mute 2 3] "mic" /\
  forall s, In s (c_src c) -> plays_same i1 i2 c c' [] [mute 2 3] s /\ path_of c' s "mic" = path_of c s "mic".
Proof.
  destruct (@mute_meets i1 two []) as (c & d & st & Hc & Hd & A & B & C); [vm_compute; reflexivity|repeat constructor; simpl; intros; auto; discriminate|cbn; lia|vm_compute; reflexivity|].
  destruct (@mute_meets i2 three [(2, 3)]) as (c' & d' & st' & Hc' & Hd' & A' & B' & C'); [vm_compute; reflexivity|repeat constructor; simpl; intros; auto; discriminate|cbn; lia|vm_compute; reflexivity|].
  pose proof (coll_is _ _ (fun c => (c_arrays c, c_mic c, c_src c, c_free c)) Hc (ltac:(vm_compute; reflexivity))) as Q. cbv beta in Q. injection Q as Q1 Q2 Q3 Q4.
  pose proof (coll_is _ _ (fun c => (c_arrays c, c_mic c, c_src c, c_free c)) Hc' (ltac:(vm_compute; reflexivity))) as Q'. cbv beta in Q'. injection Q' as Q1' Q2' Q3' Q4'.
  exists c, d, st, c', d', st'. split; [exact A|]. split; [exact B|]. split; [exact C|]. split; [exact A'|]. split; [exact B'|]. split; [exact C'|].
  pose proof (coll_is _ _ (fun c => lookup2 (c_paths c) "src" "mic") Hc (ltac:(vm_compute; reflexivity))) as P. cbv beta in P.
  pose proof (coll_is _ _ (fun c => lookup2 (c_paths c) "src" "mic") Hc' (ltac:(vm_compute; reflexivity))) as P'. cbv beta in P'.
  destruct (recorders_get _ _ Hd) as [_ K]. destruct (recorders_get _ _ Hd') as [_ K'].
  split. { intros k a. unfold the_array. rewrite Q1. cbn [dget]. repeat destruct (String.eqb _ _); intros X; inversion X; subst; reflexivity. }
  split. { intros k a. unfold the_array. rewrite Q1'. cbn [dget]. repeat destruct (String.eqb _ _); intros X; inversion X; subst; reflexivity. }
  split; [reflexivity|]. split; [intros X; discriminate X|]. split; [rewrite Q3, Q3'; reflexivity|]. split; [exact Q2|]. split; [exact Q2'|].
  split; [unfold the_array; rewrite Q1; reflexivity|]. split; [unfold the_array; rewrite Q1'; reflexivity|]. split; [apply K; left; reflexivity|]. split; [apply K'; left; reflexivity|].
  split; [exact (mute_untouched [(2, 3)] "mic")|]. intros s Hs. rewrite Q3 in Hs. destruct Hs as [<-|[]]. split.
  - left. rewrite Q4, Q4'. split; [left; reflexivity|]. split; [left; reflexivity|]. exists (at_place "src" KFree (Some 5) 2), (at_place "src" KFree (Some 5) 2). split; [unfold the_array; rewrite Q1; reflexivity|]. split; [unfold the_array; rewrite Q1'; reflexivity|]. split; reflexivity.
  - unfold path_of. rewrite P, P'. reflexivity.
Qed.
(** adding arrays to a built collection *)
Lemma built_all l : forall (c c' : coll demo), Forall (sized (fun _ => 1)) l -> built (sized (fun _ => 1)) c -> add_all c l = Ok c' -> built (sized (fun _ => 1)) c'.
Proof.
  unfold add_all. induction l as [|a l IH]; simpl; intros c c' F B H; [inversion H; subst; auto|]. inversion F; subst.
  apply bind_ok in H as (c5 & H5 & H). destruct (add_array c a) as [c6 [u|]] eqn:Q; inversion H5; subst. apply (IH c5 c'); auto. eapply built_add; eauto.
Qed.
(** the recordings of the two *)
Example C107_values : recs_of (mute_run i1 two []) ["mic"] = recs_of (mute_run i2 three [(2, 3)]) ["mic"] /\
  recs_of (mute_run i1 two []) ["mic"] = [Some (map (fun x => Some [x]) [0; 0; 5; 6; 7; 8; 9; 10; 11; 12; 13; 14])].
Proof. split; vm_compute; reflexivity. Qed.
(** the arrays l with paths set up at random *)
Definition random_coll (i : info) (l : list (arr Pos Src)) : res (coll demo) := c <- add_all (empty_coll g0) l ;; c <- set_default_path_type c "random" ;; setup_ir c i.
(** C107 is false for random paths: all are drawn from one generator, so a further microphone that is added first changes the path to the other one *)
Theorem C107_random_refuted : exists c c' p p', random_coll i1 two = Ok c /\ random_coll i1 three = Ok c' /\
  the_array c "src" (at_place "src" KFree (Some 5) 2) /\ the_array c' "src" (at_place "src" KFree (Some 5) 2) /\
  the_array c "mic" (at_place "mic" KMic None 0) /\ the_array c' "mic" (at_place "mic" KMic None 0) /\
  lookup2 (c_ptypes c) "src" "mic" = Some "random" /\ lookup2 (c_ptypes c') "src" "mic" = Some "random" /\
  lookup2 (c_paths c) "src" "mic" = Some p /\ lookup2 (c_paths c') "src" "mic" = Some p' /\ p_at p 0 0 0 <> p_at p' 0 0 0.
Proof.
  destruct (get_ex (random_coll i1 two) (fun c => (dget (c_arrays c) "src", dget (c_arrays c) "mic", lookup2 (c_ptypes c) "src" "mic", option_map (fun p => p_at p 0 0 0) (lookup2 (c_paths c) "src" "mic"))) _ (ltac:(vm_compute; reflexivity))) as (c & Hc & Q). cbv beta in Q.
  destruct (get_ex (random_coll i1 three) (fun c => (dget (c_arrays c) "src", dget (c_arrays c) "mic", lookup2 (c_ptypes c) "src" "mic", option_map (fun p => p_at p 0 0 0) (lookup2 (c_paths c) "src" "mic"))) _ (ltac:(vm_compute; reflexivity))) as (c' & Hc' & Q'). cbv beta in Q'.
  injection Q as A1 A2 A3 A4. injection Q' as A1' A2' A3' A4'.
  change (option_map (fun p => p_at p 0 0 0) (lookup2 (c_paths c) "src" "mic") = Some 0) in A4. change (option_map (fun p => p_at p 0 0 0) (lookup2 (c_paths c') "src" "mic") = Some 100) in A4'.
  destruct (lookup2 (c_paths c) "src" "mic") as [p|] eqn:E1; [|discriminate A4]. destruct (lookup2 (c_paths c') "src" "mic") as [p'|] eqn:E2; [|discriminate A4'].
  exists c, c', p, p'. split; [exact Hc|]. split; [exact Hc'|]. split; [exact A1|]. split; [exact A1'|]. split; [exact A2|]. split; [exact A2'|]. split; [exact A3|]. split; [exact A3'|]. split; [exact E1|]. split; [exact E2|].
  cbn [option_map] in A4, A4'. intros X. assert (Y : Some 0 = Some 100) by exact (eq_trans (eq_sym A4) (eq_trans (f_equal Some X) A4')). discriminate Y.
Qed.
(** the hypotheses of C107_paths hold for these rooms *)
Example C107_paths_example : exists c c' d d', built (sized (fun _ => 1)) c /\ built (sized (fun _ => 1)) c' /\ setup_ir c i1 = Ok d /\ setup_ir c' i1 = Ok d' /\
  c_src c = ["src"] /\ c_mic c = ["mic"] /\ c_mic c' = ["mic2"; "mic"] /\ the_array c "src" (at_place "src" KFree (Some 5) 2) /\ the_array c' "src" (at_place "src" KFree (Some 5) 2) /\
  the_array c "mic" (at_place "mic" KMic None 0) /\ the_array c' "mic" (at_place "mic" KMic None 0) /\
  lookup2 (c_ptypes c) "src" "mic" = Some "ism" /\ lookup2 (c_ptypes c') "src" "mic" = Some "ism" /\ randomized_ism i1 = false /\
  (forall par g g' x y h p h' p', rp_random par = false -> @ism3d demo par g x y = Ok (h, p) -> @ism3d demo par g' x y = Ok (h', p') -> p = p').
Proof.
  destruct (get_ex (c <- add_all (@empty_coll demo g0) two ;; set_default_path_type c "ism") (fun c => (c_arrays c, c_src c, c_mic c, lookup2 (c_ptypes c) "src" "mic", is_ok (setup_ir c i1))) _ (ltac:(vm_compute; reflexivity))) as (c & Hc & Q). cbv beta in Q.
  destruct (get_ex (c <- add_all (@empty_coll demo g0) three ;; set_default_path_type c "ism") (fun c => (c_arrays c, c_src c, c_mic c, lookup2 (c_ptypes c) "src" "mic", is_ok (setup_ir c i1))) _ (ltac:(vm_compute; reflexivity))) as (c' & Hc' & Q'). cbv beta in Q'.
  injection Q as A1 A2 A3 A4 A5. injection Q' as A1' A2' A3' A4' A5'. apply is_ok_ex in A5 as [d Hd]. apply is_ok_ex in A5' as [d' Hd'].
  exists c, c', d, d'. split; [|split]; [| |split; [exact Hd|]; split; [exact Hd'|]].
  - apply bind_ok in Hc as (c1 & X1 & X2). eapply built_default; [|exact X2]. eapply built_all; [|constructor|exact X1]. repeat constructor; simpl; intros; auto; discriminate.
  - apply bind_ok in Hc' as (c1 & X1 & X2). eapply built_default; [|exact X2]. eapply built_all; [|constructor|exact X1]. repeat constructor; simpl; intros; auto; discriminate.
  - split; [exact A2|]. split; [exact A3|]. split; [exact A3'|]. unfold the_array. rewrite A1, A1'. split; [reflexivity|]. split; [reflexivity|]. split; [reflexivity|]. split; [reflexivity|]. split; [exact A4|]. split; [exact A4'|]. split; [reflexivity|].
    intros par g g' x y h p h' p' _ H1 H2. cbn in H1, H2. injection H1 as _ <-. injection H2 as _ <-. reflexivity.
Qed.
End Examples.
Print Assumptions C107_local.
Print Assumptions C107_paths.
Print Assumptions C107_random_refuted.
