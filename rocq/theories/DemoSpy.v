(** Concrete runs with a processor that logs its calls: one microphone, one free source, one loudspeaker. *)
Require Import Verif.PyBase Verif.PyLemmas Verif.ConfigModel Verif.ArrayModel Verif.ArraySpec Verif.ArrayProofs Verif.ArrayPaths
  Verif.LoggerModel Verif.LoggerSpec Verif.LoggerProofs Verif.SimModel Verif.SimSpec Verif.SimDiag Verif.RunSpec
  Verif.DiagModel Verif.DiagCtorModel Verif.Demo Verif.DemoRun Verif.ProcModel.
Local Open Scope string_scope.
Local Open Scope Z_scope.
Local Existing Instances demo demo_d.

(** counts its calls, plays the last block picked up by the microphone *)
Definition play (bs : Z) (s : Z) (w : dict (list (@frame demo))) : Z * dict (list frame) :=
  (s + 1, match dget w "mic" with Some x => [("spk", pyslice x (zlen x - bs) (zlen x))] | None => [] end).
Definition no_save (d : Empty_set) (_ : option (spied Z)) (_ : dict (list (@frame demo))) (_ : Z * Z) : res Empty_set := match d with end.
Definition no_out (d : Empty_set) (_ : Z) : res Empty_set := match d with end.
Definition spy_s : @SEnv demo := full no_save no_out.
Local Existing Instance spy_s.
Definition sspy (bs h : Z) : @proc demo spy_s :=
  spy (dg_save no_save) (dg_out no_out) bs h [] (play bs) 0.
Definition spy_diags (i : info) : res (dict (diag (@D demo spy_s))) :=
  a <- (r <- record_signal "mic" 1 None (tot_samples i) ;; signal_diag_init i ANone None (DRecordSignal r : D)) ;;
  b <- (r <- record_signal "src" 1 None (tot_samples i) ;; signal_diag_init i ANone None (DRecordSignal r : D)) ;;
  c <- (r <- record_signal "spk" 1 None (tot_samples i) ;; signal_diag_init i ANone None (DRecordSignal r : D)) ;;
  Ok [("mic", a); ("src", b); ("spk", c)].

(** the arrays l with paths set up by the image source method *)
Definition coll_of (i : info) (l : list (arr Pos Src)) : res (coll demo) :=
  c <- add_all (empty_coll g0) l ;; c <- set_default_path_type c "ism" ;; setup_ir c i.
Lemma coll_of_built i l c : Forall (sized (fun _ => 1)) l -> coll_of i l = Ok c -> built (sized (fun _ => 1)) c.
Proof.
  unfold coll_of. intros HF H. apply bind_ok in H as (c0 & Q0 & H). apply bind_ok in H as (c1 & Q1 & Q2).
  eapply built_setup; [|exact Q2]. eapply built_default; [|exact Q1].
  assert (K : forall l (c c' : coll demo), Forall (sized (fun _ => 1)) l -> built (sized (fun _ => 1)) c -> add_all c l = Ok c' -> built (sized (fun _ => 1)) c').
  { unfold add_all. clear. induction l as [|a l IH]; simpl; intros c c' F B H; [inversion H; subst; auto|]. inversion F; subst.
    apply bind_ok in H as (c5 & H5 & H). destruct (add_array c a) as [c6 [u|]] eqn:Q; inversion H5; subst.
    apply (IH c5 c'); auto. eapply built_add; eauto. }
  eapply K; [exact HF|constructor|exact Q0].
Qed.
Lemma coll_experiment (S : @SEnv demo) i l c ps : Forall (sized (fun _ => 1)) l -> coll_of i l = Ok c -> supported i ps ->
  Forall (fun p => forall s w, NoDup (dkeys (snd (pr_step p s w)))) ps -> @experiment demo S i c ps.
Proof.
  intros HF H HS HP. pose proof (coll_of_built _ _ _ HF H) as B. destruct (built_shaped (Q := sized (fun _ => 1)) demo_shaped (fun a H => H) B) as (Hsz & Sh & _).
  constructor; auto.
  - eapply built_ok; eauto.
  - intros k a Ha. destruct (Hsz _ _ Ha). lia.
Qed.

Definition spy_run (i : info) (l : list (arr Pos Src)) (bs h : Z) : res sim :=
  c <- coll_of i l ;; d <- spy_diags i ;; run_simulation i c [sspy bs h] d.
Lemma spy_good i d : spy_diags i = Ok d -> get (spy_diags i) (fun l => forallb (fun kd => diag_okb i (snd kd)) l) = Some true -> good_diags i d.
Proof.
  intros Hd HG. rewrite Hd in HG. unfold spy_diags in Hd. do 3 (apply bind_ok in Hd as (? & _ & Hd)). inversion Hd; subst d. apply good_of; [repeat constructor; simpl; intuition discriminate|].
  cbn [get] in HG. exact (f_equal (fun o => match o with Some b => b | None => false end) HG).
Qed.
(** everything a theorem about runs asks for *)
Lemma spy_meets i l bs h : is_ok (spy_run i l bs h) = true -> Forall (sized (fun _ => 1)) l -> supported i [sspy bs h] ->
  get (spy_diags i) (fun l => forallb (fun kd => diag_okb i (snd kd)) l) = Some true ->
  exists c d st, coll_of i l = Ok c /\ spy_diags i = Ok d /\ spy_run i l bs h = Ok st /\
    experiment i c [sspy bs h] /\ good_diags i d /\ run_simulation i c [sspy bs h] d = Ok st.
Proof.
  intros H HF HS HG. apply is_ok_ex in H as [st H]. pose proof H as H'. unfold spy_run in H. apply bind_ok in H as (c & Hc & H). apply bind_ok in H as (d & Hd & H).
  exists c, d, st. split; auto. split; auto. split; auto. split.
  - eapply coll_experiment; eauto. repeat constructor. intros s w. cbn. destruct (dget w "mic"); cbn; repeat constructor. intros [].
  - split; auto. eapply spy_good; eauto.
Qed.
(** the exception raised *)
Definition raised {A} (r : res A) : option exn := match r with Ok _ => None | Err e => Some e end.
(** what was recorded for mic, src and spk *)
Definition recs (x : res (@sim demo spy_s)) : list (option (list (option (list Z)))) :=
  match x with
  | Ok st => map (fun n => match dget (sm_diags st) n with Some d => match d_pl d with DRecordSignal r => Some (rs_data r) | _ => None end | None => None end) ["mic"; "src"; "spk"]
  | Err _ => []
  end.
(** the windows of the signal nm that the calls of the processor were handed *)
Definition logs (x : res (@sim demo spy_s)) : list (dict (list (list Z)) * dict (list (list Z))) :=
  match x with Ok st => match sm_procs st with [p] => snd (pr_state p : spied Z) | _ => [] end | Err _ => [] end.
Definition wins (nm : string) (x : res (@sim demo spy_s)) := map (fun wo => dget (fst wo) nm) (logs x).
Lemma room_sized tr : Forall (sized (fun _ => 1)) (room tr).
Proof. repeat constructor; simpl; intros; auto; discriminate. Qed.
