(** Concrete simulations for the Examples: one microphone, one free source, one loudspeaker that plays
    back what the microphone picked up, with all sorts of diagnostics. *)
Require Import Verif.PyBase Verif.PyLemmas Verif.ConfigModel Verif.ArrayModel Verif.ArraySpec Verif.ArrayProofs Verif.ArrayPaths
  Verif.LoggerModel Verif.LoggerSpec Verif.LoggerProofs Verif.SimModel Verif.SimSpec Verif.SimDiag Verif.RunSpec
  Verif.DiagModel Verif.DiagCtorModel Verif.Demo.
Local Open Scope string_scope.
Local Open Scope Z_scope.

Definition demo_d : @DEnv demo := @mkDEnv demo (fun x => x * x) Z.div Z.div.
Local Existing Instances demo demo_d.
Definition g0 : @G demo := 0.
Definition one (n : string) (k : kind) (p : Z) (tr : option (Z -> Z)) : arr Pos Src :=
  mkArr n k 1 (p : Pos) (tr : option (Z -> Pos)) ["omni"] (Some (5 : Src)) [] [].
Definition room (tr : option (Z -> Z)) : list (arr Pos Src) :=
  [one "mic" KMic 0 tr; one "src" KFree 2 None; one "spk" KCtrl 1 None].
(** tot_samples 12, the given buffer and chunk size, sources started before time 0 or not *)
Definition run_info (buffer chunk : Z) (before0 contributions : bool) : info :=
  mkInfo 12 buffer chunk before0 contributions 4 100 343 3 "ism" [1; 1; 1] [0; 0; 0] 1 4 false 0 0 6 "npz" 2 false.
Definition run_coll (i : info) (tr : option (Z -> Z)) : res (coll demo) :=
  c <- add_all (empty_coll g0) (room tr) ;; c <- set_default_path_type c "ism" ;; setup_ir c i.
Lemma run_coll_built i tr c : run_coll i tr = Ok c -> built (sized (fun _ => 1)) c.
Proof.
  unfold run_coll. intros H. apply bind_ok in H as (c0 & Q0 & H). apply bind_ok in H as (c1 & Q1 & Q2).
  eapply built_setup; [|exact Q2]. eapply built_default; [|exact Q1].
  assert (K : forall l (c c' : coll demo), Forall (sized (fun _ => 1)) l -> built (sized (fun _ => 1)) c -> add_all c l = Ok c' -> built (sized (fun _ => 1)) c').
  { unfold add_all. clear. induction l as [|a l IH]; simpl; intros c c' F B H; [inversion H; subst; auto|]. inversion F; subst.
    apply bind_ok in H as (c5 & H5 & H). destruct (add_array c a) as [c6 [u|]] eqn:Q; inversion H5; subst.
    apply (IH c5 c'); auto. eapply built_add; eauto. }
  eapply K; [|constructor|exact Q0]. repeat constructor; simpl; intros; auto; discriminate.
Qed.
Lemma demo_shaped : @generators_shaped demo (fun _ => 1).
Proof. split; simpl; intros; auto. inversion H; subst; auto. Qed.

Section Player.
Variables D0 Out0 : Type.
Variable dsave0 : D0 -> option Z -> dict (list frame) -> Z * Z -> res D0.
Variable dout0 : D0 -> Z -> res Out0.
Local Instance PlS : SEnv := @mkSEnv demo Z D0 Out0 dsave0 dout0.
(** counts its calls; plays the block it has just picked up *)
Definition player (bs : Z) : proc := {|
  pr_bs := bs; pr_hist := bs; pr_locals := [];
  pr_step := fun s w => (s + 1, match dget w "mic" with Some x => [("spk", x)] | None => [] end);
  pr_state := (0 : PS) |}.
Lemma demo_experiment i tr c ps : run_coll i tr = Ok c -> supported i ps -> Forall (fun p => exists bs, p = player bs) ps -> experiment i c ps.
Proof.
  intros H HS HP. pose proof (run_coll_built _ _ _ H) as B. destruct (built_shaped (Q := sized (fun _ => 1)) demo_shaped (fun a H => H) B) as (Hsz & Sh & _).
  constructor; auto.
  - eapply built_ok; eauto.
  - intros k a Ha. destruct (Hsz _ _ Ha). lia.
  - eapply Forall_impl; [|exact HP]. intros p [bs ->] s w. simpl. destruct (dget w "mic"); simpl; repeat constructor. intros [].
Qed.

End Player.
Arguments player {D0 Out0 dsave0 dout0} bs.

(** no further diagnostics *)
Definition demo_s : @SEnv demo := @full demo demo_d Z Empty_set Empty_set (fun d => match d with end) (fun d => match d with end).
Local Existing Instance demo_s.

Definition dplayer (bs : Z) : @proc demo demo_s := player bs.

(** diagnostics: name, constructor *)
Definition rec (i : info) (nm : string) (sv : option (list (Z * Z))) : res (diag D) :=
  iv <- (match sv with None => Ok None | Some l => x <- ivc_of_intervals l ;; Ok (Some x) end) ;;
  r <- record_signal nm 1 None (tot_samples i) ;; signal_diag_init i (AInt 6) iv (DRecordSignal r : D).
Definition demo_diags (i : info) : res (dict (diag D)) :=
  a <- rec i "mic" None ;; b <- rec i "src" None ;; c <- rec i "spk" None ;;
  p <- rec i "mic" (Some [(1, 3); (4, 9)]) ;;
  s <- record_state_init i (AList [5; 12]) (AInt 2) (fun n => DState (state_init (fun x : Z => [x]) 1 n) : D) ;;
  f <- instant_diag_init i (AList [5; 9]) (DInstant (mkInstantDiag (fun x : Z => [x]) None) : D) ;;
  w <- signal_diag_init i ANone None (DSignalPower (signal_power "src" None (tot_samples i)) : D) ;;
  r <- signal_diag_init i ANone None (DPowerRatio (signal_power_ratio "src" "src" None None (output_smoothing i) (tot_samples i)) : D) ;;
  o <- soundfield_power "src" 1 (2, 10) ;; o <- soundfield_init i (2, 10) (DSoundfield o : D) ;;
  u <- soundfield_init i (2, 10) (DSummary (signal_summary "src" (2, 10) None) : D) ;;
  x <- soundfield_init i (2, 10) (DSpectrum (signal_spectrum "src" (2, 10) 1 None) : D) ;;
  Ok [("rm", a); ("rs", b); ("rk", c); ("part", p); ("state", s); ("inst", f); ("pow", w); ("ratio", r); ("sf", o); ("sum", u); ("spec", x)].
Definition demo_run (i : info) (tr : option (Z -> Z)) (ps : list proc) : res sim :=
  c <- run_coll i tr ;; d <- demo_diags i ;; run_simulation i c ps d.

(** a decidable version of [diag_ok] *)
Fixpoint ivs_okb (lo : Z) (l : list (Z * Z)) : bool :=
  match l with [] => true | (s, e) :: r => (lo <=? s) && (s <? e) && ivs_okb e r end.
Fixpoint nondecb (x : list Z) : bool :=
  match x with e :: ((e' :: _) as r) => (e <=? e') && nondecb r | _ => true end.
Definition diag_okb {D1} (i : info) (d : diag D1) : bool :=
  (match iv_start (d_iv d), iv_end (d_iv d) with Fin _, Fin _ => true | _, _ => false end) &&
  (iv_saved (d_iv d) =? 0) && (match ix_next (d_ix d) with Fin _ => true | _ => false end) &&
  ivs_okb (1 - sim_buffer i) (iv_list (d_iv d)) && forallb (fun iv => 0 <=? snd iv) (iv_list (d_iv d)) &&
  nondecb (ix_list (d_ix d)) && forallb (fun e => 1 <=? e) (ix_list (d_ix d)).
Lemma ivs_okb_ok lo l : ivs_okb lo l = true -> ivs_ok lo l.
Proof. revert lo; induction l as [|[s e] l IH]; simpl; intros lo H; auto. specialize (IH e). destruct (ivs_okb e l); [|lia]. split; [lia|]. split; [lia|auto]. Qed.
Lemma nondecb_ok l : nondecb l = true -> nondecreasing l.
Proof. induction l as [|e [|e' l] IH]; simpl; intros H; auto. apply andb_prop in H as [A B]. split; [lia|]. apply IH; auto. Qed.
Lemma diag_okb_ok (S : @SEnv demo) i (d : diag (@D demo S)) : diag_okb i d = true -> @diag_ok demo S i d.
Proof.
  unfold diag_okb, diag_ok. intros H. repeat (apply andb_prop in H as [H ?]).
  split; [unfold iv_wf; destruct (iv_start (d_iv d)), (iv_end (d_iv d)); auto; discriminate|]. split; [lia|].
  split; [unfold ix_wf; destruct (ix_next (d_ix d)); auto; discriminate|].
  split; [apply ivs_okb_ok; auto|]. split; [apply Forall_forall; rewrite forallb_forall in *; intros x Hx; specialize (H2 x Hx); lia|].
  split; [apply nondecb_ok; auto|]. apply Forall_forall; rewrite forallb_forall in *; intros x Hx. specialize (H0 x Hx); lia.
Qed.
Lemma good_of (S : @SEnv demo) i (diags : dict (diag (@D demo S))) : NoDup (dkeys diags) -> forallb (fun kd => diag_okb i (snd kd)) diags = true -> @good_diags demo S i diags.
Proof.
  intros H K. split; auto. intros nm d Hd. apply diag_okb_ok. rewrite forallb_forall in K. apply (K (nm, d)). apply dget_In. auto.
Qed.
Lemma demo_good i diags : demo_diags i = Ok diags -> get (demo_diags i) (fun l => forallb (fun kd => diag_okb i (snd kd)) l) = Some true -> good_diags i diags.
Proof.
  intros H K. rewrite H in K. simpl in K. inversion K as [K1]. clear K. split.
  - assert (dkeys diags = ["rm"; "rs"; "rk"; "part"; "state"; "inst"; "pow"; "ratio"; "sf"; "sum"; "spec"]) as ->.
    { unfold demo_diags in H. repeat (apply bind_ok in H as (? & _ & H)). inversion H; subst; auto. }
    repeat constructor; simpl; intuition discriminate.
  - intros nm d Hd. apply diag_okb_ok. rewrite forallb_forall in K1. apply (K1 (nm, d)). apply dget_In. auto.
Qed.
Example demo_run_ok : get (demo_run (run_info 10 5 false true) None [dplayer 3]) (fun st => sm_n st) = Some 15.
Proof. vm_compute; reflexivity. Qed.
(** everything a theorem about runs asks for *)
Lemma demo_meets i tr ps : is_ok (demo_run i tr ps) = true -> supported i ps -> Forall (fun p => exists bs, p = dplayer bs) ps ->
  get (demo_diags i) (fun l => forallb (fun kd => diag_okb i (snd kd)) l) = Some true ->
  exists c d st, run_coll i tr = Ok c /\ demo_diags i = Ok d /\ demo_run i tr ps = Ok st /\
    experiment i c ps /\ good_diags i d /\ run_simulation i c ps d = Ok st.
Proof.
  intros H HS HP HG. apply is_ok_ex in H as [st H]. pose proof H as H'. unfold demo_run in H. apply bind_ok in H as (c & Hc & H). apply bind_ok in H as (d & Hd & H).
  exists c, d, st. split; auto. split; auto. split; auto. split; [eapply demo_experiment; eauto|]. split; auto. apply demo_good; auto.
Qed.
