(** C130: the logger knows when the next export is due. *)
Require Import Verif.PyBase Verif.PyLemmas Verif.LoggerModel Verif.LoggerSpec Verif.LoggerProofs Verif.ExportModel Verif.UpcomingModel Verif.ArrayProofs.
Set Implicit Arguments.
Local Open Scope Z_scope.

Section Upcoming.
Variables (F PS D Out : Type).
Variable dsave : D -> option PS -> dict (list F) -> Z * Z -> res D.
Variable dout : D -> Z -> res Out.
Notation diag := (diag D).
Notation logger := (logger D Out).

(* ------------------------------------------------------------------ specification *)
(** the time of the next export of some diagnostic *)
Definition pending_at (l : logger) (e : Z) : Prop := exists nm d, In (nm, d) (lg_diags l) /\ ix_next (d_ix d) = Fin e.
(** what is announced is the earliest of all, or infinity if there is none *)
Definition announces (l : logger) : Prop :=
  match next_export l with
  | Fin e => pending_at l e /\ forall e', pending_at l e' -> e <= e'
  | Inf => forall e, ~ pending_at l e
  end.
(** the calls of a simulation after prepare: saving and dispatching, in any order *)
Inductive steps (plot_output : string) : logger -> logger -> Prop :=
| no_step l : steps plot_output l l
| save_step l proc sigs idx g last l1 l2 : logger_save dsave l proc sigs idx g last = Ok l1 -> steps plot_output l1 l2 -> steps plot_output l l2
| dispatch_step l l1 l2 : logger_dispatch dout plot_output l = Ok l1 -> steps plot_output l1 l2 -> steps plot_output l l2.

(* ------------------------------------------------------------------ proofs *)
Lemma earliest r : forall x, match fold_left earlier r x with
  | Fin e => In (Fin e) (x :: r) /\ forall e', In (Fin e') (x :: r) -> e <= e'
  | Inf => forall e, ~ In (Fin e) (x :: r)
  end.
Proof.
  induction r as [|y r IH]; intros x; cbn [fold_left].
  - destruct x as [e|]; [split; [left; reflexivity|]; intros e' [H|[]]; injection H as ->; lia|]. intros e [H|[]]; discriminate.
  - specialize (IH (earlier x y)). destruct (fold_left earlier r (earlier x y)) as [e|].
    + destruct IH as [I M]. split.
      * destruct I as [I|I]; [|right; right; exact I]. destruct x as [a|], y as [b|]; cbn [earlier] in I; try discriminate.
        -- injection I as <-. destruct (Z.min_spec a b) as [[_ ->]|[_ ->]]; [left|right; left]; reflexivity.
        -- left. exact I.
        -- right; left. exact I.
      * intros e' H. assert (K : forall z, earlier x y = Fin z -> e <= z) by (intros z Hz; apply M; left; exact Hz).
        destruct H as [->|[->|H]]; [destruct y; cbn [earlier] in K; specialize (K _ eq_refl); lia|destruct x; cbn [earlier] in K; specialize (K _ eq_refl); lia|]. apply M. right. exact H.
    + intros e [->|[->|H]]; [destruct y; eapply IH; left; reflexivity|destruct x; eapply IH; left; reflexivity|]. eapply IH. right. exact H.
Qed.
Lemma update_announces l : announces (update_next_export l).
Proof.
  unfold announces, next_export, update_next_export. cbn [lg_upcoming]. set (times := map _ (lg_diags l)).
  assert (P : forall e, pending_at (mkLogger (lg_diags l) (lg_out l) Inf) e <-> In (Fin e) times).
  { intros e. unfold pending_at, times. cbn [lg_diags]. rewrite in_map_iff. split.
    - intros (nm & d & I & H). exists (nm, d). auto.
    - intros ([nm d] & H & I). exists nm, d. auto. }
  assert (Q : forall u e, pending_at (mkLogger (lg_diags l) (lg_out l) u) e <-> In (Fin e) times) by exact (fun u => P). clearbody times. clear P.
  unfold amin. destruct times as [|x r]; [intros e H; apply Q in H; destruct H|]. pose proof (earliest r x) as M. destruct (fold_left earlier r x) as [e|].
  - destruct M as [I M]. split; [apply Q; exact I|]. intros e' H. apply Q in H. apply M. exact H.
  - intros e H. apply Q in H. eapply M. exact H.
Qed.
Lemma save_one_ix proc sigs idx g last (d d' : diag) : save_one dsave proc sigs idx g last d = Ok d' -> d_ix d' = d_ix d.
Proof.
  unfold save_one. destruct (iv_start (d_iv d)) as [s|], (iv_end (d_iv d)) as [e|]; try (intros H; injection H as <-; reflexivity).
  destruct (e <=? g); [|destruct (last && (s <? g))]; intros H; try (injection H as <-; reflexivity); apply bind_ok in H as (pl & _ & H); apply bind_ok in H as (iv & _ & H); injection H as <-; reflexivity.
Qed.
Lemma save_pending l proc sigs idx g last l' : logger_save dsave l proc sigs idx g last = Ok l' -> lg_upcoming l' = lg_upcoming l /\ forall e, pending_at l' e <-> pending_at l e.
Proof.
  unfold logger_save. intros H. apply bind_ok in H as (dg & S & H). injection H as <-. split; [reflexivity|]. unfold pending_at. cbn [lg_diags]. unfold save_data in S. revert dg S.
  induction (lg_diags l) as [|[nm d] r IH]; intros dg S; cbn [mapM] in S; [injection S as <-; reflexivity|].
  apply bind_ok in S as (kd & S1 & S). apply bind_ok in S as (dg' & S2 & S). injection S as <-. apply bind_ok in S1 as (d' & S1 & K). injection K as <-. cbn [fst snd] in *. pose proof (save_one_ix _ _ _ _ _ _ S1) as X. specialize (IH _ S2).
  intros e. split; intros (n & x & [I|I] & N).
  - injection I as <- <-. exists nm, d. split; [left; reflexivity|congruence].
  - destruct (proj1 (IH e)) as (n' & x' & I' & N'); [exists n, x; auto|]. exists n', x'. split; [right; exact I'|exact N'].
  - injection I as <- <-. exists nm, d'. split; [left; reflexivity|congruence].
  - destruct (proj2 (IH e)) as (n' & x' & I' & N'); [exists n, x; auto|]. exists n', x'. split; [right; exact I'|exact N'].
Qed.
(** C130.  After prepare, and at all times of a simulation, the announced time is the earliest of the next exports of all diagnostics, and infinity if nothing is left to export. *)
Theorem C130_announced plot_output l l' : steps plot_output (logger_prepare l) l' -> announces l'.
Proof.
  intros H. assert (A : announces (logger_prepare l)) by apply update_announces. revert A. induction H as [l0|l0 proc sigs idx g last l1 l2 S _ IH|l0 l1 l2 S _ IH]; intros A; auto.
  - apply IH. destruct (save_pending _ _ _ _ _ _ S) as [U P]. unfold announces, next_export in *. rewrite U. destruct (lg_upcoming l0) as [e|].
    + destruct A as [A M]. split; [apply P; exact A|]. intros e' H. apply M, P. exact H.
    + intros e H. apply (A e), P. exact H.
  - apply IH. unfold logger_dispatch in S. apply bind_ok in S as (a & DI & S). destruct (String.eqb_spec plot_output "none") as [->|N]; cbn [negb] in S; injection S as <-; [|apply update_announces].
    unfold dispatch in DI. cbn [String.eqb Ascii.eqb Bool.eqb negb] in DI. injection DI as <-. exact A.
Qed.
(** When a dispatch with output has returned, no export of what has been saved is left: the next export of every diagnostic lies after the time until which it has saved. *)
Theorem C130_after_dispatch plot_output l l' : NoDup (dkeys (lg_diags l)) -> all_ix_wf (lg_diags l) -> plot_output <> "none"%string -> logger_dispatch dout plot_output l = Ok l' ->
  announces l' /\ forall nm d e, In (nm, d) (lg_diags l') -> ix_next (d_ix d) = Fin e -> iv_saved (d_iv d) < e.
Proof.
  intros ND W N S. unfold logger_dispatch in S. apply bind_ok in S as (a & DI & S). apply dispatch_lane in DI as (_ & K & ST & _); auto. specialize (ST N).
  destruct (String.eqb_spec plot_output "none") as [Q|_]; [contradiction|]. cbn [negb] in S. injection S as <-. split; [apply update_announces|].
  intros nm d e I H. cbn [update_next_export lg_diags] in I. apply In_dget in I; [|cbn [fst] in K; rewrite K; exact ND]. specialize (ST _ _ I). unfold ix_list in ST. rewrite H in ST. exact ST.
Qed.
(** Adding a diagnostic changes no other one and does not change what is announced: before the next dispatch with output, a diagnostic that is added late and exports earlier is not announced. *)
Theorem C130_added l name d : (dmem (lg_diags l) name = true -> logger_add l name d = Err AssertionError) /\
  (dmem (lg_diags l) name = false -> exists l', logger_add l name d = Ok l' /\ next_export l' = next_export l /\ lg_out l' = lg_out l /\ (forall nm x, In (nm, x) (lg_diags l') <-> In (nm, x) (lg_diags l) \/ (nm, x) = (name, d)) /\
     (announces l -> (announces l' <-> match ix_next (d_ix d), next_export l with Fin e, Fin e' => e' <= e | Fin _, Inf => False | Inf, _ => True end))).
Proof.
  unfold logger_add, add_diagnostic, passert. split; intros M; rewrite M; [reflexivity|]. cbn [negb bind]. eexists. split; [reflexivity|]. split; [reflexivity|]. split; [reflexivity|].
  assert (I : forall nm x, In (nm, x) (dset (lg_diags l) name d) <-> In (nm, x) (lg_diags l) \/ (nm, x) = (name, d)).
  { assert (N : ~ In name (dkeys (lg_diags l))) by (rewrite <- dmem_spec; congruence). clear M. induction (lg_diags l) as [|[k y] r IH]; intros nm x; cbn [dset].
    - cbn. intuition congruence.
    - destruct (String.eqb_spec name k) as [->|Q]; [exfalso; apply N; left; reflexivity|]. cbn [In]. rewrite IH; [tauto|]. intros H. apply N. right. exact H. }
  split; [exact I|]. intros A.
  assert (P : forall e, pending_at (mkLogger (dset (lg_diags l) name d) (lg_out l) (lg_upcoming l)) e <-> pending_at l e \/ ix_next (d_ix d) = Fin e).
  { intros e. unfold pending_at. cbn [lg_diags]. split.
    - intros (nm & x & H & X). apply I in H as [H|H]; [left; eauto|]. injection H as -> ->. auto.
    - intros [(nm & x & H & X)|X]; [exists nm, x|exists name, d]; (split; [apply I|exact X]); auto. }
  unfold announces, next_export in *. cbn [lg_upcoming]. destruct (lg_upcoming l) as [u|].
  - destruct A as [A1 A2]. destruct (ix_next (d_ix d)) as [e|]; split; intros H.
    + destruct H as [_ H]. apply H, P. auto.
    + split; [apply P; auto|]. intros e' H'. apply P in H' as [H'|H']; [auto|]. injection H' as <-. exact H.
    + exact Logic.I.
    + split; [apply P; auto|]. intros e' H'. apply P in H' as [H'|H']; [auto|discriminate].
  - destruct (ix_next (d_ix d)) as [e|]; split; intros H.
    + apply (H e), P. auto.
    + destruct H.
    + exact Logic.I.
    + intros e H'. apply P in H' as [H'|H']; [eapply A; exact H'|discriminate].
Qed.
End Upcoming.

(* ------------------------------------------------------------------ Example *)
Section Example_.
Local Open Scope string_scope.
(** diagnostics that count their samples; one exports at 4, 8, 12, one at 6 *)
Let count (n : Z) (_ : option unit) (_ : dict (list Z)) (ab : Z * Z) : res Z := Ok (n + (snd ab - fst ab)).
Let show (n e : Z) : res Z := Ok n.
Definition often : diag Z := mkDiag (ivc_make [(0, 12)] 12) (ixc_make [4; 8; 12]) 0.
Definition once : diag Z := mkDiag (ivc_make [(0, 12)] 12) (ixc_make [6]) 0.
Definition demo_logger : res (logger Z Z) := l <- logger_add (logger_init Z Z) "often" often ;; logger_add l "once" once.
Definition demo_steps (po : string) (l : logger Z Z) : list (res ext) :=
  let l0 := logger_prepare l in let a := logger_save count l0 None [] 6 5 true in let b := (x <- a ;; logger_dispatch show po x) in let c := (x <- b ;; logger_save count x None [] 6 12 true) in let d := (x <- c ;; logger_dispatch show po x) in
  map (fun r => x <- r ;; Ok (next_export x)) [Ok l; Ok l0; a; b; c; d].
Example C130_values : (l <- demo_logger ;; Ok (demo_steps "pdf" l)) = Ok [Ok (Fin 0); Ok (Fin 4); Ok (Fin 4); Ok (Fin 6); Ok (Fin 6); Ok Inf] /\
  (l <- demo_logger ;; Ok (demo_steps "none" l)) = Ok [Ok (Fin 0); Ok (Fin 4); Ok (Fin 4); Ok (Fin 4); Ok (Fin 4); Ok (Fin 4)].
Proof. split; vm_compute; reflexivity. Qed.
Example C130_announced_meets : exists l l1 l2, demo_logger = Ok l /\ logger_save count (logger_prepare l) None [] 6 5 true = Ok l1 /\ logger_dispatch show "pdf" l1 = Ok l2 /\ steps count show "pdf" (logger_prepare l) l2 /\ next_export l2 = Fin 6.
Proof.
  eexists. eexists. eexists. split; [vm_compute; reflexivity|]. split; [vm_compute; reflexivity|]. split; [vm_compute; reflexivity|]. split; [|vm_compute; reflexivity].
  eapply (@save_step _ _ _ _ _ _ _ _ None [] 6 5 true); [vm_compute; reflexivity|]. eapply dispatch_step; [vm_compute; reflexivity|]. apply no_step.
Qed.
Example C130_after_dispatch_meets : exists l l1 l2, demo_logger = Ok l /\ logger_save count (logger_prepare l) None [] 6 5 true = Ok l1 /\ NoDup (dkeys (lg_diags l1)) /\ all_ix_wf (lg_diags l1) /\ logger_dispatch show "pdf" l1 = Ok l2 /\ lg_out l2 = [("often", 4, 5)].
Proof.
  eexists. eexists. eexists. split; [vm_compute; reflexivity|]. split; [vm_compute; reflexivity|]. split; [repeat constructor; cbn; intuition discriminate|].
  split; [intros nm d H; cbn [lg_diags dget] in H; repeat (destruct (String.eqb _ _); [injection H as <-; exact I|]); discriminate|]. split; vm_compute; reflexivity.
Qed.
(** a diagnostic that exports at 2, added after prepare, is not announced *)
Example C130_added_meets : exists l, demo_logger = Ok l /\ dmem (lg_diags l) "early" = false /\ announces (logger_prepare l) /\
  exists l', logger_add (logger_prepare l) "early" (mkDiag (ivc_make [(0, 12)] 12) (ixc_make [2]) 0) = Ok l' /\ next_export l' = Fin 4 /\ pending_at l' 2.
Proof.
  eexists. split; [vm_compute; reflexivity|]. split; [reflexivity|]. split; [exact (update_announces show _)|]. eexists. split; [vm_compute; reflexivity|]. split; [reflexivity|]. exists "early". eexists. split; [right; right; left; reflexivity|reflexivity].
Qed.
End Example_.
Print Assumptions C130_announced.
Print Assumptions C130_after_dispatch.
Print Assumptions C130_added.
