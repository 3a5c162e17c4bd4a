(** The concrete world of Demo and DemoRun with rational samples, for Examples that divide. *)
From Coq Require Import QArith_base Qcanon.
Require Import Verif.PyBase Verif.PyLemmas Verif.ConfigModel Verif.ArrayModel Verif.ArraySpec Verif.ArrayProofs Verif.ArrayPaths
  Verif.LoggerModel Verif.LoggerSpec Verif.LoggerProofs Verif.SimModel Verif.SimSpec Verif.SimDiag Verif.RunSpec
  Verif.DiagModel Verif.DiagCtorModel Verif.Demo Verif.DemoRun.
Local Open Scope string_scope.
Local Open Scope Z_scope.

Definition qz (n : Z) : Qc := Q2Qc (inject_Z n).
Definition qdemo : AEnv := {|
  V := Qc; v0 := qz 0; v1 := qz 1; vadd := Qcplus; vmul := Qcmult;
  Pos := Z; Src := Z;
  src_get := fun s n => (s + n, map (fun k => [qz k]) (zrange s (s + n)));
  G := Z;
  np_normal := fun g _ _ _ => (g, fun _ _ _ => qz 0);
  ism3d := fun par g p q => Ok (g, mkPath 1 1 (rp_len par) (fun _ _ k => if k =? Z.abs (p - q) then qz 1 else qz 0));
  filter_rirs := fun p _ _ => p |}.
Definition qdemo_d : @DEnv qdemo := @mkDEnv qdemo (fun x => Qcmult x x) (fun x n => Qcdiv x (qz n)) Qcdiv.
Definition qdemo_s : @SEnv qdemo := @full qdemo qdemo_d Z Empty_set Empty_set (fun d => match d with end) (fun d => match d with end).
Local Existing Instances qdemo qdemo_d qdemo_s.
Definition qroom : list (arr Pos Src) :=
  [mkArr "mic" KMic 1 (0 : Pos) None ["omni"] None [] []; mkArr "src" KFree 1 (2 : Pos) None ["omni"] (Some (5 : Src)) [] []].
Definition qrun_coll (i : info) : res (coll qdemo) :=
  c <- add_all (empty_coll (0 : G)) qroom ;; c <- set_default_path_type c "ism" ;; setup_ir c i.
(** a processor that does nothing *)
Definition idle (bs : Z) : @proc qdemo qdemo_s := {| pr_bs := bs; pr_hist := bs; pr_locals := []; pr_step := fun s w => (s + 1, []); pr_state := (0 : PS) |}.

Lemma qdemo_experiment i c bs : qrun_coll i = Ok c -> supported i [idle bs] -> experiment i c [idle bs].
Proof.
  intros H HS. unfold qrun_coll in H. apply bind_ok in H as (c0 & Q0 & H). apply bind_ok in H as (c1 & Q1 & Q2).
  assert (B : built (sized (fun _ => 1)) c).
  { eapply built_setup; [|exact Q2]. eapply built_default; [|exact Q1].
    assert (K : forall l (c c' : coll qdemo), Forall (sized (fun _ => 1)) l -> built (sized (fun _ => 1)) c -> add_all c l = Ok c' -> built (sized (fun _ => 1)) c').
    { unfold add_all. clear. induction l as [|a l IH]; simpl; intros c c' F B H; [inversion H; subst; auto|]. inversion F; subst.
      apply bind_ok in H as (c5 & H5 & H). destruct (add_array c a) as [c6 [u|]] eqn:Q; inversion H5; subst.
      apply (IH c5 c'); auto. eapply built_add; eauto. }
    eapply K; [|constructor|exact Q0]. repeat constructor; simpl; intros; auto; discriminate. }
  assert (G0 : @generators_shaped qdemo (fun _ => 1)) by (split; simpl; intros; auto; inversion H; subst; auto).
  destruct (built_shaped (Q := sized (fun _ => 1)) G0 (fun a H => H) B) as (Hsz & Sh & _).
  constructor; auto.
  - eapply built_ok; eauto.
  - intros k a Ha. destruct (Hsz _ _ Ha). lia.
  - repeat constructor.
Qed.
Lemma qdiag_okb_ok i (d : diag D) : diag_okb i d = true -> diag_ok i d.
Proof.
  unfold diag_okb, diag_ok. intros H. repeat (apply andb_prop in H as [H ?]).
  split; [unfold iv_wf; destruct (iv_start (d_iv d)), (iv_end (d_iv d)); auto; discriminate|]. split; [lia|].
  split; [unfold ix_wf; destruct (ix_next (d_ix d)); auto; discriminate|].
  split; [apply ivs_okb_ok; auto|]. split; [apply Forall_forall; rewrite forallb_forall in *; intros x Hx; specialize (H2 x Hx); lia|].
  split; [apply nondecb_ok; auto|]. apply Forall_forall; rewrite forallb_forall in *; intros x Hx. specialize (H0 x Hx); lia.
Qed.

(** "sf", "sum" and "spec" over the samples 2..9 of the source; "ratio": microphone to source power, smoothed over 2 samples *)
Definition qdiags (i : info) : res (dict (diag D)) :=
  o <- soundfield_power "src" 1 (2, 10) ;; o <- soundfield_init i (2, 10) (DSoundfield o : D) ;;
  u <- soundfield_init i (2, 10) (DSummary (signal_summary "src" (2, 10) None) : D) ;;
  x <- soundfield_init i (2, 10) (DSpectrum (signal_spectrum "src" (2, 10) 1 None) : D) ;;
  iv <- ivc_of_intervals [(0, tot_samples i)] ;;
  r <- signal_diag_init i (AInt 6) (Some iv) (DPowerRatio (signal_power_ratio "mic" "src" None None 2 (tot_samples i)) : D) ;;
  Ok [("sf", o); ("sum", u); ("spec", x); ("ratio", r)].
Definition qrun (i : info) : res sim := c <- qrun_coll i ;; d <- qdiags i ;; run_simulation i c [idle 3] d.
Lemma qmeets i : is_ok (qrun i) = true -> supported i [idle 3] -> get (qdiags i) (fun l => forallb (fun kd => diag_okb i (snd kd)) l) = Some true ->
  exists c d st, qrun_coll i = Ok c /\ qdiags i = Ok d /\ qrun i = Ok st /\ experiment i c [idle 3] /\ good_diags i d /\ run_simulation i c [idle 3] d = Ok st.
Proof.
  intros H HS K. apply is_ok_ex in H as [st H]. pose proof H as H'. unfold qrun in H. apply bind_ok in H as (c & Hc & H). apply bind_ok in H as (d & Hd & H).
  exists c, d, st. split; auto. split; auto. split; auto. split; [eapply qdemo_experiment; eauto|]. split; auto. rewrite Hd in K. cbn [get] in K. injection K as K. split.
  - assert (dkeys d = ["sf"; "sum"; "spec"; "ratio"]) as ->.
    { unfold qdiags in Hd. repeat (apply bind_ok in Hd as (? & _ & Hd)). inversion Hd; subst; auto. }
    repeat constructor; simpl; intuition discriminate.
  - intros nm x Hx. apply qdiag_okb_ok. rewrite forallb_forall in K. apply (K (nm, x)). apply dget_In. auto.
Qed.
(** evaluation of the rationals in results *)
Definition qshow (x : Qc) : Z * positive := (Qnum (this x), Qden (this x)).
