(** Properties of the values in state diagnostics (C74) and of the number of values announced by an
    interval counter (C75). *)
From Coq Require Import Sorted QArith_base Qreduction Qcanon.
Require Import Verif.PyBase Verif.PyLemmas Verif.ConfigModel Verif.ArrayModel Verif.ArraySpec Verif.LoggerModel Verif.LoggerSpec Verif.LoggerProofs
  Verif.SimModel Verif.SimSpec Verif.SimDiag Verif.SimLoop Verif.SignalSpec Verif.RunSpec Verif.RunLaw Verif.DiagRun
  Verif.DiagModel Verif.DiagSpec Verif.DiagProofs Verif.DiagCtorModel Verif.DiagCtorProofs Verif.SaveProps Verif.StateProofs Verif.StateProps Verif.Demo Verif.DemoRun Verif.DemoQ.
Local Open Scope Z_scope.
Set Implicit Arguments.
Arguments Z.add : simpl never.
Arguments Z.sub : simpl never.
Arguments Z.mul : simpl never.
Ltac Zify.zify_post_hook ::= Z.div_mod_to_equations.

(* ------------------------------------------------------------------ C74 *)
(** exact division by the number of summands: n times the quotient is the dividend *)
Definition exact_mean {E : AEnv} {N : DEnv} : Prop := forall (x : V) n, vsum (repeat (vdivz x (Z.of_nat (S n))) (S n)) = x.
(** m is the mean power of x: as many times m as x has entries is the sum of the squares of x *)
Definition mean_power {E : AEnv} {N : DEnv} (x : frame) (m : V) : Prop := vsum (repeat m (length x)) = vsum (map vsq x).

Section Run.
Context {E : AEnv} {DE : DEnv}.
Variables PS0 D0 Out0 : Type.
Variable dsave0 : D0 -> option PS0 -> dict (list frame) -> Z * Z -> res D0.
Variable dout0 : D0 -> Z -> res Out0.
Local Instance RS3 : SEnv := full dsave0 dout0.

Variables (i : info) (c : coll E) (p : @proc E RS3) (diags : dict (diag D)) (st : sim).
Hypothesis HX : experiment i c [p].
Hypothesis HD : good_diags i diags.
Hypothesis HR : run_simulation i c [p] diags = Ok st.
Hypothesis HT1 : 0 <= tot_samples i.
Notation sg := (signals_of i c [p]).
Notation ds := (dims_of i c [p]).
(** the processor after n calls *)
Notation after n := (state_after ds sg p (Z.to_nat n)).

Lemma one_value y v : fills 1 [y] v -> v = [y].
Proof.
  intros [[H1 ->]|(x & H1 & ->)]; [reflexivity|]. inversion H1; subst. reflexivity.
Qed.
Lemma single_values (get : PS0 -> V) ks vals : Forall2 (fun k v => fills 1 [get (after k)] v) ks vals -> vals = map (fun k => [get (after k)]) ks.
Proof. induction 1 as [|k v ks vals H _ IH]; auto. cbn [map]. f_equal; auto. apply one_value; auto. Qed.
Lemma stored_single nm (get : PS0 -> V) f e d0 : 1 <= f ->
  record_state_init i e (AInt f) (fun n => DState (state_init (fun q => [get q]) 1 n) : D) = Ok d0 -> dget diags nm = Some d0 ->
  exists d r, dget (sm_diags st) nm = Some d /\ d_pl d = DState r /\
    forall k, 1 <= k <= tot_samples i / f -> zget (st_values r) (k - 1) = Some (Some [get (after ((k * f + 1) / pr_bs p))]) /\ zget (st_times r) (k - 1) = Some (k * f - 1).
Proof using HX HD HR HT1.
  intros Hf Hi Hd. destruct (C15_stored HX HD HR HT1 nm _ _ _ Hf Hi Hd) as (d & r & vals & A & B & _ & V & T & K). exists d, r. split; auto. split; auto. intros k Hk.
  assert (KV : vals = map (fun k => [get (after ((k * f + 1) / pr_bs p))]) (zrange 1 (tot_samples i / f + 1))).
  { clear - K. remember (zrange 1 (tot_samples i / f + 1)) as ks. clear Heqks. induction K as [|k v ks vals H _ IH]; auto. cbn [map]. f_equal; auto. apply one_value; auto. }
  subst vals. rewrite V, T. rewrite !zget_app, !zlen_map, zlen_zrange. destruct (Z.ltb_spec (k - 1) (Z.max 0 (tot_samples i / f + 1 - 1))); [|lia].
  assert (ZG : forall {A} (g : Z -> A), zget (map g (zrange 1 (tot_samples i / f + 1))) (k - 1) = Some (g k)).
  { intros A0 g. rewrite zget_map, zget_zrange. destruct (Z.leb_spec 0 (k - 1)); [|lia]. destruct (Z.ltb_spec (k - 1) (tot_samples i / f + 1 - 1)); [|lia].
    cbn [andb option_map]. do 2 f_equal. lia. }
  rewrite map_map, !ZG. auto.
Qed.

(** C74.  StatePower created with export_at = f (which is the save frequency, see C20): the k-th value has
    the time k*f - 1 and is the mean power of the property after (k*f + 1) // block_size calls. *)
Theorem C74_power nm (prop : PS0 -> frame) f s d0 : exact_mean -> (forall q, prop q <> []) -> 1 <= f ->
  state_power_init i (AInt f) s (fun n => DState (state_init (state_power prop) 1 n) : D) = Ok d0 -> dget diags nm = Some d0 ->
  exists d r, dget (sm_diags st) nm = Some d /\ d_pl d = DState r /\
    forall k, 1 <= k <= tot_samples i / f -> exists m, zget (st_values r) (k - 1) = Some (Some [m]) /\ zget (st_times r) (k - 1) = Some (k * f - 1) /\
      mean_power (prop (after ((k * f + 1) / pr_bs p))) m.
Proof.
  intros HM HP Hf Hi Hd. destruct (@stored_single nm _ f s d0 Hf Hi Hd) as (d & r & A & B & K). exists d, r. split; auto. split; auto.
  intros k Hk. destruct (K k Hk) as [K1 K2]. eexists. split; [exact K1|]. split; [exact K2|]. unfold mean_power.
  set (x := prop _). assert (x <> []) by apply HP. destruct x as [|y x]; [congruence|]. unfold zlen. apply (HM _ (length x)).
Qed.
(** StateComparison: the comparison of the two states, StateSummary: the summary of the state, at that time *)
Theorem C74_comparison X nm (cmp : X -> X -> V) (s1 s2 : PS0 -> X) f e d0 : 1 <= f ->
  record_state_init i e (AInt f) (fun n => DState (state_init (state_comparison cmp s1 s2) 1 n) : D) = Ok d0 -> dget diags nm = Some d0 ->
  exists d r, dget (sm_diags st) nm = Some d /\ d_pl d = DState r /\
    forall k, 1 <= k <= tot_samples i / f -> let q := after ((k * f + 1) / pr_bs p) in
      zget (st_values r) (k - 1) = Some (Some [cmp (s1 q) (s2 q)]) /\ zget (st_times r) (k - 1) = Some (k * f - 1).
Proof. intros Hf Hi Hd. exact (@stored_single nm (fun q => cmp (s1 q) (s2 q)) f e d0 Hf Hi Hd). Qed.
Theorem C74_summary X nm (g : X -> V) (s : PS0 -> X) f e d0 : 1 <= f ->
  record_state_init i e (AInt f) (fun n => DState (state_init (state_summary g s) 1 n) : D) = Ok d0 -> dget diags nm = Some d0 ->
  exists d r, dget (sm_diags st) nm = Some d /\ d_pl d = DState r /\
    forall k, 1 <= k <= tot_samples i / f ->
      zget (st_values r) (k - 1) = Some (Some [g (s (after ((k * f + 1) / pr_bs p)))]) /\ zget (st_times r) (k - 1) = Some (k * f - 1).
Proof. intros Hf Hi Hd. exact (@stored_single nm (fun q => g (s q)) f e d0 Hf Hi Hd). Qed.
End Run.

(* ------------------------------------------------------------------ C75 *)
(** the number of time indices in a list of intervals *)
Definition covered (l : list (Z * Z)) : Z := fold_right (fun iv n => snd iv - fst iv + n) 0 l.
Lemma fold_covered l : forall a, fold_left Z.add (map (fun iv => snd iv - fst iv) l) a = a + covered l.
Proof. induction l as [|x l IH]; intros a; cbn [map fold_left covered fold_right]; [lia|]. rewrite IH. unfold covered. lia. Qed.
Lemma covered_unit es : covered (unit_ivs es) = zlen es.
Proof. induction es as [|e es IH]; auto. cbn [unit_ivs map covered fold_right fst snd]. rewrite zlen_cons. change (fold_right _ 0 (map _ es)) with (covered (unit_ivs es)). lia. Qed.
Lemma zlen_multiples f tot : 1 <= f -> 0 <= tot -> zlen (multiples f tot) = tot / f.
Proof. intros Hf Ht. unfold multiples. rewrite zlen_map, zlen_zrange. assert (0 <= tot / f) by (apply Z.div_pos; lia). lia. Qed.

(** C75.  A counter made from intervals or from indices announces as many values as it saves. *)
Theorem C75_intervals l : l <> [] -> exists v, ivc_of_intervals l = Ok v /\ iv_list v = l /\ iv_num v = covered (iv_list v).
Proof.
  intros H. unfold ivc_of_intervals. destruct l as [|x l]; [congruence|]. eexists. split; [reflexivity|]. rewrite ivc_make_list. split; auto.
  unfold ivc_make. destruct (iv_next (x :: l)) as [[? ?] ?]. cbn [iv_num]. rewrite fold_covered. lia.
Qed.
Theorem C75_indices l : l <> [] -> exists v, ivc_of_indices l = Ok v /\ iv_list v = unit_ivs l /\ iv_num v = covered (iv_list v).
Proof.
  intros H. unfold ivc_of_indices. destruct l as [|x l]; [congruence|]. eexists. split; [reflexivity|]. rewrite ivc_make_list. split; auto. fold (unit_ivs (x :: l)). rewrite covered_unit. auto.
Qed.
(** nothing to save is an error *)
Theorem C75_empty : ivc_of_intervals [] = Err IndexError /\ ivc_of_indices [] = Err IndexError.
Proof. split; reflexivity. Qed.
(** A counter made from a frequency: right exactly if the frequency divides the number of samples. *)
Theorem C75_frequency f tot : 1 <= f -> 0 <= tot -> exists v, ivc_from_frequency f tot false = Ok v /\ iv_list v = unit_ivs (multiples f tot) /\
  covered (iv_list v) <= iv_num v <= covered (iv_list v) + 1 /\ (iv_num v = covered (iv_list v) <-> (f | tot)).
Proof.
  intros Hf Ht. destruct (ivc_from_frequency f tot false) as [v|] eqn:Q; [|unfold ivc_from_frequency in Q; destruct (Z.eqb_spec f 0), (Z.ltb_spec f 0); try lia; discriminate].
  exists v. split; auto. destruct (frequency_ivs _ Hf Q) as (A & _ & _ & B). split; auto. rewrite A, B, covered_unit, zlen_multiples by auto.
  assert (K : (tot + f - 1) / f = if tot mod f =? 0 then tot / f else tot / f + 1).
  { pose proof (Z.div_mod tot f ltac:(lia)). pose proof (Z.mod_pos_bound tot f ltac:(lia)). symmetry. destruct (Z.eqb_spec (tot mod f) 0).
    - apply Z.div_unique with (r := f - 1); lia. - apply Z.div_unique with (r := tot mod f - 1); lia. }
  rewrite K. rewrite <- Z.mod_divide by lia. destruct (Z.eqb_spec (tot mod f) 0); split; try lia; split; lia.
Qed.
(** so a state diagnostic may keep an entry that is never filled: 10 samples, saved every 4 *)
Theorem C75_frequency_refuted : exists v, ivc_from_frequency 4 10 false = Ok v /\ iv_list v = [(3, 4); (7, 8)] /\ covered (iv_list v) = 2 /\ iv_num v = 3.
Proof. eexists. split; [reflexivity|]. repeat split. Qed.

(* ------------------------------------------------------------------ Examples *)
Section Examples.
Local Open Scope string_scope.
Local Open Scope Z_scope.
Local Existing Instances qdemo qdemo_d qdemo_s.
Let i := run_info 10 5 false true.
Lemma qz_S n : qz (Z.of_nat (S n)) = (1 + qz (Z.of_nat n))%Qc.
Proof.
  unfold qz. apply Qc_is_canon. apply (@Qeq_trans _ (inject_Z (Z.of_nat (S n)))); [apply Qred_correct|]. apply Qeq_sym.
  apply (@Qeq_trans _ (1 + inject_Z (Z.of_nat n))%Q).
  - apply (@Qeq_trans _ (this (Q2Qc 1) + this (Q2Qc (inject_Z (Z.of_nat n))))%Q); [apply Qred_correct|]. apply Qplus_comp; apply Qred_correct.
  - unfold Qeq, inject_Z, Qplus. cbn [Qnum Qden]. lia.
Qed.
Lemma qz_pos n : (qz (Z.of_nat (S n)) <> 0)%Qc.
Proof.
  intros H. apply (f_equal this) in H. assert (K : (inject_Z (Z.of_nat (S n)) == 0)%Q).
  { apply (@Qeq_trans _ (Qred (inject_Z (Z.of_nat (S n))))); [apply Qeq_sym, Qred_correct|]. change (Qred (inject_Z (Z.of_nat (S n)))) with (this (qz (Z.of_nat (S n)))). rewrite H. reflexivity. }
  unfold Qeq in K. cbn [Qnum Qden inject_Z] in K. lia.
Qed.
Lemma sum_copies (q : Qc) n : forall a, fold_left Qcplus (repeat q n) a = (a + q * qz (Z.of_nat n))%Qc.
Proof.
  induction n as [|n IH]; intros a.
  - cbn [repeat fold_left]. change (qz (Z.of_nat 0)) with (0%Qc : Qc). ring.
  - cbn [repeat fold_left]. rewrite IH, qz_S. ring.
Qed.
Lemma exact_mean_Qc : @exact_mean qdemo qdemo_d.
Proof.
  intros x n. unfold vsum. change (@vdivz qdemo qdemo_d x (Z.of_nat (S n))) with (Qcdiv x (qz (Z.of_nat (S n)))). change (@vadd qdemo) with Qcplus. rewrite sum_copies. change (@v0 qdemo) with (qz 0).
  change (qz 0) with (0%Qc : Qc). pose proof (@qz_pos n). change (@V qdemo) with Qc in x. rewrite Qcplus_0_l. unfold Qcdiv. rewrite <- Qcmult_assoc, (Qcmult_comm (Qcinv _)), Qcmult_inv_r by assumption. apply Qcmult_1_r.
Qed.
(** "pw" the mean power of a property with two entries, "cmp" the difference of two states, "sum" twice a state *)
Definition two (s : Z) : @frame qdemo := [qz s; qz (s + 1)].
Definition vdiags : res (dict (diag (@D qdemo qdemo_s))) :=
  a <- state_power_init i (AInt 2) (AInt 6) (fun n => DState (state_init (state_power two) 1 n) : D) ;;
  b <- record_state_init i (AInt 6) (AInt 4) (fun n => DState (state_init (state_comparison (fun x y : Z => qz (x - y)) (fun s => 3 * s) (fun s => s)) 1 n) : D) ;;
  d <- record_state_init i ANone (AInt 3) (fun n => DState (state_init (state_summary qz (fun s => s)) 1 n) : D) ;;
  Ok [("pw", a); ("cmp", b); ("sum", d)].
Definition vrun : res sim := c <- qrun_coll i ;; d <- vdiags ;; run_simulation i c [idle 3] d.
Lemma value_demo : exists c diags st a b d, experiment i c [idle 3] /\ good_diags i diags /\ run_simulation i c [idle 3] diags = Ok st /\ 0 <= tot_samples i /\
  (state_power_init i (AInt 2) (AInt 6) (fun n => DState (state_init (state_power two) 1 n) : D) = Ok a /\ dget diags "pw" = Some a) /\
  (record_state_init i (AInt 6) (AInt 4) (fun n => DState (state_init (state_comparison (fun x y : Z => qz (x - y)) (fun s => 3 * s) (fun s => s)) 1 n) : D) = Ok b /\ dget diags "cmp" = Some b) /\
  (record_state_init i ANone (AInt 3) (fun n => DState (state_init (state_summary qz (fun s => s)) 1 n) : D) = Ok d /\ dget diags "sum" = Some d).
Proof.
  destruct (@bind_is_ok _ _ vdiags (fun d => if forallb (fun kd => diag_okb i (snd kd)) d then c <- qrun_coll i ;; st <- run_simulation i c [idle 3] d ;; Ok tt else Err ValueError))
    as (dd & u & Hd & K); [vm_compute; reflexivity|].
  destruct (forallb (fun kd => diag_okb i (snd kd)) dd) eqn:Q; [|discriminate]. apply bind_ok in K as (c & Hc & K). apply bind_ok in K as (st & Hs & _).
  unfold vdiags in Hd. apply bind_ok in Hd as (a & H0 & Hd). apply bind_ok in Hd as (b & H1 & Hd). apply bind_ok in Hd as (d & H2 & Hd).
  assert (Ed : [("pw", a); ("cmp", b); ("sum", d)] = dd) by (injection Hd; auto). clear Hd. subst dd.
  exists c, [("pw", a); ("cmp", b); ("sum", d)], st, a, b, d. split; [apply (@qdemo_experiment i c 3 Hc); cbn; lia|].
  split; [|split; [exact Hs|split; [cbn; lia|split; [split; [exact H0|reflexivity]|split; [split; [exact H1|reflexivity]|split; [exact H2|reflexivity]]]]]].
  split; [change (NoDup ["pw"; "cmp"; "sum"]); repeat constructor; cbn [In]; intuition discriminate|].
  intros nm x Hx. apply qdiag_okb_ok. rewrite forallb_forall in Q. apply (Q (nm, x)). apply dget_In. exact Hx.
Qed.
Example C74_power_meets : @exact_mean qdemo qdemo_d /\ (forall q, two q <> []) /\ 1 <= 2 /\ exists c diags st a, experiment i c [idle 3] /\ good_diags i diags /\ run_simulation i c [idle 3] diags = Ok st /\ 0 <= tot_samples i /\
  state_power_init i (AInt 2) (AInt 6) (fun n => DState (state_init (state_power two) 1 n) : D) = Ok a /\ dget diags "pw" = Some a.
Proof.
  split; [exact exact_mean_Qc|]. split; [intros q K; discriminate K|]. split; [lia|].
  destruct value_demo as (c & diags & st & a & b & d & A & B & R & T & (H1 & H2) & _). exists c, diags, st, a. do 5 (split; [assumption|]). assumption.
Qed.
Example C74_comparison_meets : 1 <= 4 /\ exists c diags st b, experiment i c [idle 3] /\ good_diags i diags /\ run_simulation i c [idle 3] diags = Ok st /\ 0 <= tot_samples i /\
  record_state_init i (AInt 6) (AInt 4) (fun n => DState (state_init (state_comparison (fun x y : Z => qz (x - y)) (fun s => 3 * s) (fun s => s)) 1 n) : D) = Ok b /\ dget diags "cmp" = Some b.
Proof. split; [lia|]. destruct value_demo as (c & diags & st & a & b & d & A & B & R & T & _ & (H1 & H2) & _). exists c, diags, st, b. do 5 (split; [assumption|]). assumption. Qed.
Example C74_summary_meets : 1 <= 3 /\ exists c diags st d, experiment i c [idle 3] /\ good_diags i diags /\ run_simulation i c [idle 3] diags = Ok st /\ 0 <= tot_samples i /\
  record_state_init i ANone (AInt 3) (fun n => DState (state_init (state_summary qz (fun s => s)) 1 n) : D) = Ok d /\ dget diags "sum" = Some d.
Proof. split; [lia|]. destruct value_demo as (c & diags & st & a & b & d & A & B & R & T & _ & _ & (H1 & H2)). exists c, diags, st, d. do 5 (split; [assumption|]). assumption. Qed.
Example C74_values : get vrun (fun st => map (fun nm => match dget (sm_diags st) nm with Some d => match d_pl d with DState r => (map (option_map (map qshow)) (st_values r), st_times r) | _ => ([], []) end | None => ([], []) end) ["pw"; "cmp"; "sum"])
  = Some [([Some [(5, 2%positive)]; Some [(5, 2%positive)]; Some [(13, 2%positive)]; Some [(25, 2%positive)]; Some [(25, 2%positive)]; Some [(41, 2%positive)]], [1; 3; 5; 7; 9; 11]);
          ([Some [(2, 1%positive)]; Some [(6, 1%positive)]; Some [(8, 1%positive)]], [3; 7; 11]);
          ([Some [(1, 1%positive)]; Some [(2, 1%positive)]; Some [(3, 1%positive)]; Some [(4, 1%positive)]], [2; 5; 8; 11])].
Proof. vm_compute. reflexivity. Qed.
Example C75_intervals_meets : [(2, 5); (7, 9)] <> [] /\ covered [(2, 5); (7, 9)] = 5.
Proof. split; [discriminate|reflexivity]. Qed.
Example C75_indices_meets : [3; 8; 9] <> [] /\ covered (unit_ivs [3; 8; 9]) = 3.
Proof. split; [discriminate|reflexivity]. Qed.
Example C75_frequency_meets : 1 <= 4 /\ 0 <= 12 /\ exists v, ivc_from_frequency 4 12 false = Ok v /\ iv_num v = 3.
Proof. split; [lia|]. split; [lia|]. eexists. split; reflexivity. Qed.
End Examples.

Print Assumptions C74_power.
Print Assumptions C74_comparison.
Print Assumptions C74_summary.
Print Assumptions C75_intervals.
Print Assumptions C75_indices.
Print Assumptions C75_empty.
Print Assumptions C75_frequency.
Print Assumptions C75_frequency_refuted.
