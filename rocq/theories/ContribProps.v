(** Source contributions: C08. *)
Require Import Verif.PyBase Verif.PyLemmas Verif.ConfigModel Verif.ArrayModel Verif.ArraySpec Verif.ArrayProofs Verif.ArrayPaths Verif.LoggerModel Verif.LoggerSpec Verif.LoggerProofs
  Verif.SimModel Verif.SimSpec Verif.SimRefine Verif.SimRun Verif.SimDiag Verif.SimLoop Verif.SignalSpec Verif.SignalPass Verif.SignalRun Verif.SignalInv Verif.SignalStart Verif.RunSpec Verif.RunLaw Verif.DiagRun
  Verif.DiagModel Verif.DiagSpec Verif.DiagProofs Verif.DiagCtorModel Verif.DiagCtorProofs Verif.SaveProps Verif.ProcModel Verif.Demo Verif.DemoRun Verif.DemoSpy Verif.SignalProps Verif.SizeProofs
  Verif.ContribProofs.
Set Implicit Arguments.
Arguments Z.add : simpl never.
Arguments Z.sub : simpl never.
Arguments Z.mul : simpl never.

Section Contributions.
Context {E : AEnv} {DE : DEnv}.
Variables PS0 D0 Out0 : Type.
Variable dsave0 : D0 -> option PS0 -> dict (list frame) -> Z * Z -> res D0.
Variable dout0 : D0 -> Z -> res Out0.
Local Instance CoS : SEnv := full dsave0 dout0.

Section Sum.
Variables (i : info) (c : coll E) (procs : list (@proc E CoS)) (diags : dict (diag D)) (st : sim).
Hypothesis Hct : save_source_contributions i = true.
Hypothesis HX : experiment i c procs.
Hypothesis HD : good_diags i diags.
Hypothesis HR : run_simulation i c procs diags = Ok st.
Notation sg := (signals_of i c procs).
Notation ds := (dims_of i c procs).

Lemma recorded_contribution dn s m b : In s (c_src c) -> In m (c_mic c) -> the_array c m b -> records i diags dn (contrib s m) (a_num b) -> recording i st dn (sg (contrib s m)).
Proof.
  intros Hs Hm Hb Hr. eapply (recorded_signal HX HD HR); [exact Hr| |eapply (ex_counts HX); exact Hb].
  destruct (run_facts HX HD HR) as (r & P & H1 & _ & Hds & Hr0 & Es & C1 & C2 & C3 & HN & _). apply (no_con HN Hct s Hs Hm Hb).
Qed.
(** C08.  [dn k] records the array k, [cn s m] the contribution of the source s to the microphone m.  The recorded
    contributions y and signals x: a contribution is the source filtered through the path of the pair (which
    moves with the arrays as in C09), and a microphone signal the processor does not write to is their sum. *)
Theorem C08_contributions inf (dn : string -> string) (cn : string -> string -> string) : c_info c = Some inf -> 1 <= array_update_freq inf ->
  (forall k a, the_array c k a -> In k (c_src c) \/ In k (c_mic c) -> records i diags (dn k) k (a_num a)) ->
  (forall s m b, In s (c_src c) -> In m (c_mic c) -> the_array c m b -> records i diags (cn s m) (s ++ "~" ++ m)%string (a_num b)) ->
  exists (x : string -> Z -> frame) (y : string -> string -> Z -> frame) (P : Z -> string -> string -> path V),
    (forall k, In k (c_src c) \/ In k (c_mic c) -> recording i st (dn k) (x k)) /\
    (forall s m, In s (c_src c) -> In m (c_mic c) -> recording i st (cn s m) (y s m)) /\
    (forall s a t, In s (c_src c) -> the_array c s a -> t < (if start_sources_before_0 i then 1 - sim_buffer i else 0) -> x s t = zeros (a_num a)) /\
    (forall m b t, In m (c_mic c) -> the_array c m b -> mic_untouched procs m -> 0 <= t < tot_samples i ->
       x m t = mix (a_num b) (map (fun s => y s m t) (c_src c))) /\
    (forall s m t, In s (c_src c) -> In m (c_mic c) -> 0 <= t < tot_samples i -> y s m t = response (P t s m) (x s) t) /\
    (forall s m, P 0 s m = path_of c s m) /\
    (forall t u s m a b, 1 <= t < tot_samples i -> update_before (array_update_freq inf) t u ->
       In s (c_src c) -> In m (c_mic c) -> the_array c s a -> the_array c m b ->
       match a_traj a, a_traj b with
       | None, None => P t s m = path_of c s m
       | _, _ => exists ty g1 g2, lookup2 (c_ptypes c) s m = Some ty /\ made_path inf g1 (placed_at a u) (placed_at b u) ty g2 (P t s m)
       end).
Proof.
  intros Hi Hfr Hrec Hcon. destruct (mic_law_moving HX HD HR) as (P & P0 & Ps & Pm & Pl & Pc). pose proof (run_longer HX HD HR) as HL. exists sg, (fun s m => sg (contrib s m)), P. split.
  { intros k [Hk|Hk]; [destruct (src_array (ex_coll HX) k Hk) as (a & Ha & _)|destruct (mic_array (ex_coll HX) k Hk) as (a & Ha & _)]; eapply (recorded_array HX HD HR); eauto. }
  split.
  { intros s m Hs Hm. destruct (mic_array (ex_coll HX) m Hm) as (b & Hb & _). eapply recorded_contribution; eauto. }
  split.
  { intros s a t Hs Ha Ht. apply (source_before_start HX HD HR) with (s := s); auto. unfold early_start. destruct (start_sources_before_0 i); simpl; lia. }
  split.
  { intros m b t Hm Hb Hu Ht. rewrite (Pl m b t Hm Hb), (untouched_silent HX HD HR t Hb Hu), mix_zeros by lia. f_equal. apply map_ext_in. intros s Hs. symmetry. apply Pc; auto. lia. }
  split; [intros; apply Pc; auto; lia|].
  split; [intros; apply P0; lia|]. intros t u s m a b Ht ((k & ->) & Hu) Hs Hm Ha Hb.
  assert (last_update (array_update_freq inf) t = k * array_update_freq inf) as E0.
  { unfold last_update. rewrite Z.abs_eq by lia. f_equal. symmetry. apply Z.div_unique with (r := t - 1 - k * array_update_freq inf); lia. }
  rewrite <- E0. destruct (a_traj a) eqn:Qa, (a_traj b) eqn:Qb; try (apply (Pm inf t s m a b); auto; [lia|rewrite Qa, Qb; auto; left; congruence]); try (apply (Pm inf t s m a b); auto; [lia|rewrite Qa, Qb; right; congruence]).
  apply Ps; auto; [lia|]. intros a' b' Ha' Hb'. unfold the_array in *. rewrite Ha in Ha'. rewrite Hb in Hb'. inversion Ha'; inversion Hb'; subst. auto.
Qed.
End Sum.

(** the names of signals that are not contributions *)
Definition plain (c : coll E) (nm : string) : Prop := forall s m, In s (c_src c) -> In m (c_mic c) -> nm <> contrib s m.

Section Switch.
Variables (i : info) (c : coll E) (procs : list (@proc E CoS)) (diags diags' : dict (diag D)) (st st' : sim).
Notation i' := (switch false i).
Notation c' := (switch_coll false c).
(** setting up the same arrays with the option off *)
Theorem C08_setup c0 : setup_ir c0 i = Ok c -> setup_ir c0 (switch false i) = Ok (switch_coll false c).
Proof. intros H. pose proof (setup_resize (fun T => T) (fun B => B) (fun C => C) (fun _ => false) i c0) as K. rewrite H in K. apply res_rel_ok_r in K as (x & K & ->). exact K. Qed.

Hypothesis Hct : save_source_contributions i = true.
Hypothesis HB : Forall (blind (plain c)) procs.
Hypothesis HL : Forall (fun p => forall nm d, In (nm, d) (pr_locals p) -> plain c nm) procs.
Hypothesis HX : experiment i c procs.
Hypothesis HD : good_diags i diags.
Hypothesis HR : run_simulation i c procs diags = Ok st.
Hypothesis HX' : experiment i' c' procs.
Hypothesis HD' : good_diags i' diags'.
Hypothesis HR' : run_simulation i' c' procs diags' = Ok st'.

Lemma declare_get : forall l (ds ds' : dims) k, foldM declare ds l = Ok ds' -> dget ds' k = match dget ds k with Some v => Some v | None => dget l k end.
Proof.
  clear. induction l as [|[n d] l IH]; cbn [foldM]; intros ds ds' k H; [inversion H; subst; destruct (dget _ _); auto|].
  apply bind_ok in H as (ds1 & H1 & H). unfold declare in H1. cbn [fst snd] in H1. apply bind_ok in H1 as (? & H1 & H2). inversion H2; subst ds1; clear H2.
  unfold passert in H1. destruct (dmem ds n) eqn:Q; [discriminate H1|]. rewrite (IH _ _ k H). cbn [dget]. unfold dmem in Q. destruct (String.eqb_spec k n) as [->|Hn].
  - rewrite dget_dset_same. destruct (dget ds n); [discriminate Q|auto].
  - rewrite dget_dset_other by auto. auto.
Qed.
Lemma filter_get (ds : dims) l k : dget (filter (fun nd : string * Z => negb (dmem ds (fst nd))) l) k = if dmem ds k then None else dget l k.
Proof.
  clear. induction l as [|[n d] l IH]; cbn [filter dget fst]; [destruct (dmem ds k); auto|]. destruct (String.eqb_spec k n) as [->|Hn].
  - destruct (dmem ds n) eqn:Q; cbn [negb]; auto. cbn [dget]. rewrite String.eqb_refl. auto.
  - destruct (negb _); auto. cbn [dget]. apply String.eqb_neq in Hn. rewrite Hn. auto.
Qed.
Lemma dims_agree ds ds' nm : ref_dims true c procs = Ok ds -> ref_dims false c procs = Ok ds' -> plain c nm -> dget ds nm = dget ds' nm.
Proof.
  intros H1 H2 Hp. unfold ref_dims in *. apply bind_ok in H1 as (d0 & Q0 & H1). rewrite Q0 in H2. cbn [bind] in H2. apply bind_ok in H1 as (d1 & Q1 & H1). apply bind_ok in Q1 as (cs & Qc & Q1).
  assert (K : dget d1 nm = dget d0 nm).
  { rewrite (declare_get _ _ nm Q1). destruct (dget d0 nm); auto. apply dget_None. intros Hin. unfold dkeys in Hin. rewrite map_map in Hin. cbn [fst] in Hin. apply in_map_iff in Hin as ([a b] & Hn & Hin). cbn [fst snd] in Hn.
    destruct (combos_names (ex_coll HX) Qc) as [P1 _]. assert (In (a_name a, a_name b) (list_prod (c_src c) (c_mic c))) as K. { rewrite <- P1. apply in_map_iff. exists (a, b). auto. }
    apply in_prod_iff in K as [K1 K2]. apply (Hp _ _ K1 K2). auto. }
  destruct procs as [|p l]; [inversion H1; inversion H2; subst; auto|]. rewrite (declare_get _ _ nm H1), (declare_get _ _ nm H2), K, !filter_get. unfold dmem. rewrite K. auto.
Qed.
Lemma named_refs n ds r : ref_dims true c procs = Ok ds -> ref_run true (early_start i) c procs n = Ok r -> named (plain c) (r_coll r).
Proof.
  intros Hds Hr. destruct (run_facts HX HD HR) as (r1 & P1 & H1 & Hb & _ & _ & _ & _ & _ & _ & HN & _). rewrite Hct in HN.
  destruct (ref_law _ _ _ (ex_coll HX) (ex_paths HX) (ex_counts HX) H1 Hb (ex_dict HX) (early_supported HX H1) Hds Hr) as (P & _ & _ & _ & L & _).
  assert (K : forall k a, the_array c k a -> plain c k). { intros k a Hk s m Hs Hm. eapply (no_arr HN); eauto. }
  split.
  - intros k Hk. rewrite (l_free L) in Hk. apply (free_names _ (ex_coll HX)) in Hk as (a & Ha & _). eapply K; eauto.
  - intros cs Hcs. apply Forall_forall. intros [a b] Hin. destruct (combos_names (l_ok L) Hcs) as [Q _].
    assert (In (a_name a, a_name b) (list_prod (c_src (r_coll r)) (c_mic (r_coll r)))) as Hp. { rewrite <- Q. apply in_map_iff. exists (a, b). auto. }
    apply in_prod_iff in Hp as [Ha Hm]. rewrite (l_src L) in Ha. rewrite (l_mic L) in Hm. split; [|split]; cbn [fst snd].
    + destruct (src_array (ex_coll HX) _ Ha) as (x & Hx & _). eapply K; eauto.
    + destruct (mic_array (ex_coll HX) _ Hm) as (x & Hx & _). eapply K; eauto.
    + intros Hn. apply (Hn _ _ Ha Hm). reflexivity.
Qed.
Lemma switch_facts : exists r r', signals_of i c procs = r_tl r /\ signals_of i' c' procs = r_tl r' /\ sm_procs st = r_procs r /\ sm_procs st' = r_procs r' /\
  (forall nm, plain c nm -> dget (dims_of i c procs) nm = dget (dims_of i' c' procs) nm) /\ rel_ref (plain c) r r'.
Proof.
  destruct (run_facts HX HD HR) as (r & P & H1 & Hb & Hds & Hr & Es & C1 & C2 & _). destruct (run_facts HX' HD' HR') as (r' & P' & _ & _ & Hds' & Hr' & Es' & C1' & C2' & _).
  rewrite Hct in Hds, Hr. change (save_source_contributions i') with false in Hds', Hr'. change (early_start i') with (early_start i) in Hr'. change (run_length i' procs) with (run_length i procs) in Hr'.
  change (ref_dims false c' procs) with (ref_dims false c procs) in Hds'.
  exists r, r'. do 4 (split; [assumption|]). assert (HA : forall nm, plain c nm -> dget (dims_of i c procs) nm = dget (dims_of i' c' procs) nm) by (intros nm; apply dims_agree; auto).
  split; auto. assert (HNR := fun k q => @named_refs k _ q Hds). unfold ref_run in Hr, Hr', HNR. change (ref_dims false c' procs) with (ref_dims false c procs) in Hr'.
  rewrite Hds in Hr, HNR. rewrite Hds' in Hr'. cbn [bind] in Hr, Hr', HNR. apply bind_ok in Hr as (r0 & R0 & Hr). rewrite R0 in HNR. cbn [bind] in HNR.
  destruct (@prepare_follows _ _ (plain c) _ _ HA (early_start i) c procs r0 R0 (HNR 0%nat r0 eq_refl)) as (r0' & R0' & RR). rewrite R0' in Hr'. cbn [bind] in Hr'.
  destruct (@steps_follow _ _ (plain c) _ _ HA r0 r0') with (n := run_length i procs) (a := r) as (b & B1 & _ & B2); auto.
  - rewrite (ref_prepare_procs _ _ _ _ _ R0). exact HB.
  - intros k q _ Hq. apply (HNR k q Hq).
  - assert (b = r') as -> by congruence. exact B2.
Qed.
(** C08.  Switching the option off changes no recording of a signal that is not a contribution itself, if the processor
    neither looks at contributions nor creates signals named like them *)
Theorem C08_switched_off dn dn' nm num : plain c nm -> dget (dims_of i c procs) nm = Some num -> 0 <= num ->
  records i diags dn nm num -> records i' diags' dn' nm num -> exists x, recording i st dn x /\ recording i' st' dn' x.
Proof.
  intros Hp Hn H0 R1 R2. exists (signals_of i c procs nm). split; [eapply (recorded_signal HX HD HR); eauto|].
  destruct switch_facts as (r & r' & E1 & E2 & _ & _ & HA & (_ & A2 & _)).
  assert (Hn' : dget (dims_of i' c' procs) nm = Some num) by (rewrite <- HA; auto).
  destruct (recorded_signal HX' HD' HR' R2 Hn' H0) as (d & q & A & B & C). exists d, q. split; auto. split; auto. rewrite C.
  change (tot_samples i') with (tot_samples i). apply map_ext. intros t. pose proof (A2 nm Hp t) as K. rewrite <- E1, <- E2 in K. exact (f_equal Some (eq_sym K)).
Qed.
(** and the processor ends in the same state *)
Theorem C08_processor : sm_procs st' = sm_procs st.
Proof. destruct switch_facts as (r & r' & E1 & E2 & C1 & C2 & HA & (_ & _ & _ & A4)). congruence. Qed.
End Switch.
End Contributions.

(* ------------------------------------------------------------------ Examples *)
Section Examples.
Local Open Scope string_scope.
Local Existing Instances demo demo_d spy_s.
Let i1 := run_info 10 5 false true.
(** plays what the microphone has picked up, ignores everything else *)
Definition echo (bs h : Z) : @proc demo spy_s := @mkProc demo spy_s bs h [] (fun s w => (s, snd (play bs 0 w))) (0%Z, []).
Definition recorder (i : info) (nm : string) : res (diag (@D demo spy_s)) :=
  r <- record_signal nm 1 None (tot_samples i) ;; signal_diag_init i ANone None (DRecordSignal r : D).
Definition recorders (i : info) (l : list string) : res (dict (diag (@D demo spy_s))) := mapM (fun nm => d <- recorder i nm ;; Ok (nm, d)) l.
Lemma recorders_get i l d : recorders i l = Ok d -> dkeys d = l /\ forall nm, In nm l -> records i d nm nm 1.
Proof.
  unfold recorders. revert d. induction l as [|n l IH]; cbn [mapM]; intros d H; [inversion H; subst; split; [reflexivity|intros nm []]|].
  apply bind_ok in H as ([k x] & H1 & H). apply bind_ok in H as (d1 & H2 & H). inversion H; subst d; clear H. apply bind_ok in H1 as (y & H1 & Q). injection Q as -> ->.
  destruct (IH _ H2) as [K1 K2]. split; [cbn [dkeys map fst]; f_equal; exact K1|]. intros nm Hn. unfold recorder in H1. apply bind_ok in H1 as (r & R1 & R2).
  destruct (String.eqb_spec nm k) as [->|Hne].
  - exists ANone, r, x. split; [exact R1|]. split; [exact R2|]. cbn [dget]. rewrite String.eqb_refl. reflexivity.
  - destruct Hn as [Hn|Hn]; [congruence|]. destruct (K2 _ Hn) as (e & r' & d' & A & B & C). exists e, r', d'. split; [exact A|]. split; [exact B|]. cbn [dget]. apply String.eqb_neq in Hne. rewrite Hne. exact C.
Qed.
Definition echo_run (i : info) (l : list (arr Pos Src)) (names : list string) (bs h : Z) : res sim :=
  c <- coll_of i l ;; d <- recorders i names ;; run_simulation i c [echo bs h] d.
Lemma echo_meets i l names bs h : is_ok (echo_run i l names bs h) = true -> Forall (sized (fun _ => 1)) l -> supported i [echo bs h] -> NoDup names ->
  get (recorders i names) (fun l => forallb (fun kd => diag_okb i (snd kd)) l) = Some true ->
  exists c d st, coll_of i l = Ok c /\ recorders i names = Ok d /\ experiment i c [echo bs h] /\ good_diags i d /\ run_simulation i c [echo bs h] d = Ok st.
Proof.
  intros H HF HS HN HG. apply is_ok_ex in H as [st H]. unfold echo_run in H. apply bind_ok in H as (c & Hc & H). apply bind_ok in H as (d & Hd & H).
  exists c, d, st. split; auto. split; auto. split; [|split; auto].
  - eapply coll_experiment; eauto. repeat constructor. intros s w. cbn. destruct (dget w "mic"); cbn; repeat constructor. intros [].
  - apply good_of; [destruct (recorders_get _ _ Hd) as [-> _]; exact HN|]. rewrite Hd in HG. cbn [get] in HG. exact (f_equal (fun o => match o with Some b => b | None => false end) HG).
Qed.
Definition recs_of (x : res (@sim demo spy_s)) (l : list string) : list (option (list (option (list Z)))) :=
  match x with
  | Ok st => map (fun n => match dget (sm_diags st) n with Some d => match d_pl d with DRecordSignal r => Some (rs_data r) | _ => None end | None => None end) l
  | Err _ => []
  end.
Definition all5 : list string := ["mic"; "src"; "spk"; "src~mic"; "spk~mic"].
Lemma all5_nodup : NoDup all5.
Proof. repeat constructor; simpl; intuition discriminate. Qed.
Lemma three_nodup : NoDup ["mic"; "src"; "spk"].
Proof. repeat constructor; simpl; intuition discriminate. Qed.

(** a microphone that moves, a free source and a loudspeaker that plays the microphone signal, all contributions recorded *)
Example C08_example : exists c d st inf, save_source_contributions i1 = true /\ experiment i1 c [echo 3 5] /\ good_diags i1 d /\ run_simulation i1 c [echo 3 5] d = Ok st /\
  c_info c = Some inf /\ 1 <= array_update_freq inf /\
  (forall k a, the_array c k a -> In k (c_src c) \/ In k (c_mic c) -> records i1 d k k (a_num a)) /\
  (forall s m b, In s (c_src c) -> In m (c_mic c) -> the_array c m b -> records i1 d (contrib s m) (contrib s m) (a_num b)) /\
  In "mic" (c_mic c) /\ In "src" (c_src c) /\ In "spk" (c_src c) /\ mic_untouched [echo 3 5] "mic".
Proof.
  destruct (@echo_meets i1 (room (Some (fun t => t))) all5 3 5) as (c & d & st & Hc & Hd & A & B & C); [vm_compute; reflexivity|apply room_sized|cbn; lia|exact all5_nodup|vm_compute; reflexivity|].
  pose proof (coll_is _ _ (fun c => (c_arrays c, c_src c, c_mic c)) Hc (ltac:(vm_compute; reflexivity))) as Q. injection Q as Q1 Q2 Q3.
  pose proof (coll_is _ _ (fun c => c_info c) Hc (ltac:(vm_compute; reflexivity))) as Q4. cbv beta in Q4. destruct (recorders_get _ _ Hd) as [_ HRc].
  exists c, d, st. eexists. split; [reflexivity|]. split; [exact A|]. split; [exact B|]. split; [exact C|]. split; [exact Q4|]. split; [cbn; lia|].
  split; [|split; [|split; [rewrite Q3; left; reflexivity|split; [rewrite Q2; left; reflexivity|split; [rewrite Q2; right; left; reflexivity|]]]]].
  - intros k a. unfold the_array. rewrite Q1, Q2, Q3. cbn [In]. intros K [[<-|[<-|[]]]|[<-|[]]]; inversion K; subst; apply HRc; unfold all5; simpl; auto 6.
  - intros s m b. unfold the_array. rewrite Q1, Q2, Q3. cbn [In]. intros [<-|[<-|[]]] [<-|[]] K; inversion K; subst; apply HRc; unfold all5; simpl; auto 6.
  - repeat constructor. intros s w. cbn. destruct (dget w "mic"); reflexivity.
Qed.
Example C08_values : recs_of (echo_run i1 (room None) all5 3 3) all5 = map (fun l => Some (map (fun x => Some [x]) l))
  [[0; 0; 5; 6; 7; 8; 14; 16; 18; 20; 27; 30]; zrange 5 17; [0; 0; 0; 0; 0; 5; 6; 7; 8; 14; 16; 18];
   [0; 0; 5; 6; 7; 8; 9; 10; 11; 12; 13; 14]; [0; 0; 0; 0; 0; 0; 5; 6; 7; 8; 14; 16]].
Proof. vm_compute; reflexivity. Qed.
Lemma echo_blind c bs h : (forall nm, plain c nm <-> nm <> "src~mic" /\ nm <> "spk~mic") -> blind (plain c) (echo bs h).
Proof.
  intros HP. split.
  - intros s w w' H. cbn [echo pr_step]. unfold play. cbn [snd]. rewrite (H "mic"); [reflexivity|]. apply HP. split; discriminate.
  - intros s w nm xs. cbn [echo pr_step]. unfold play. cbn [snd]. destruct (dget w "mic"); [|intros []]. intros [K|[]]. injection K as <- _. apply HP. split; discriminate.
Qed.
Example C08_switch_example : exists c0 c d st d' st', setup_ir c0 i1 = Ok c /\ save_source_contributions i1 = true /\
  Forall (blind (plain c)) [echo 3 5] /\ Forall (fun p => forall nm d, In (nm, d) (pr_locals p) -> plain c nm) [echo 3 5] /\
  experiment i1 c [echo 3 5] /\ good_diags i1 d /\ run_simulation i1 c [echo 3 5] d = Ok st /\
  experiment (switch false i1) (switch_coll false c) [echo 3 5] /\ good_diags (switch false i1) d' /\ run_simulation (switch false i1) (switch_coll false c) [echo 3 5] d' = Ok st' /\
  forall nm, In nm ["mic"; "src"; "spk"] -> plain c nm /\ dget (dims_of i1 c [echo 3 5]) nm = Some 1 /\ records i1 d nm nm 1 /\ records (switch false i1) d' nm nm 1.
Proof.
  destruct (@echo_meets i1 (room (Some (fun t => t))) all5 3 5) as (c & d & st & Hc & Hd & A & B & C); [vm_compute; reflexivity|apply room_sized|cbn; lia|exact all5_nodup|vm_compute; reflexivity|].
  destruct (@echo_meets (switch false i1) (room (Some (fun t => t))) ["mic"; "src"; "spk"] 3 5) as (c' & d' & st' & Hc' & Hd' & A' & B' & C'); [vm_compute; reflexivity|apply room_sized|cbn; lia|exact three_nodup|vm_compute; reflexivity|].
  assert (exists c0, setup_ir c0 i1 = Ok c /\ coll_of (switch false i1) (room (Some (fun t => t))) = Ok (switch_coll false c)) as (c0 & S1 & S2).
  { revert Hc. generalize (room (Some (fun t => t))) i1. clear. intros l i. unfold coll_of. intros Hc. apply bind_ok in Hc as (c1 & K1 & Hc). apply bind_ok in Hc as (c2 & K2 & Hc). exists c2. split; [exact Hc|]. rewrite K1. cbn [bind]. rewrite K2. cbn [bind]. apply C08_setup. exact Hc. }
  assert (c' = switch_coll false c) as -> by exact (f_equal (fun r => match r with Ok x => x | Err _ => c' end) (eq_trans (eq_sym Hc') S2)).
  pose proof (coll_is _ _ (fun c => (c_src c, c_mic c)) Hc (ltac:(vm_compute; reflexivity))) as Q. injection Q as Q2 Q3.
  pose proof (coll_is _ _ (fun c => dims_of i1 c [echo 3 5]) Hc (ltac:(vm_compute; reflexivity))) as Q1. cbv beta in Q1.
  assert (HP : forall nm, plain c nm <-> nm <> "src~mic" /\ nm <> "spk~mic").
  { intros nm. unfold plain. rewrite Q2, Q3. split.
    - intros H. split; [apply (H "src" "mic")|apply (H "spk" "mic")]; simpl; auto.
    - intros [H1 H2] s m [<-|[<-|[]]] [<-|[]]; assumption. }
  destruct (recorders_get _ _ Hd) as [_ HRc]. destruct (recorders_get _ _ Hd') as [_ HRc'].
  exists c0, c, d, st, d', st'. split; [exact S1|]. split; [reflexivity|]. split; [constructor; [apply echo_blind; exact HP|constructor]|].
  split; [constructor; [intros nm k []|constructor]|]. split; [exact A|]. split; [exact B|]. split; [exact C|]. split; [exact A'|]. split; [exact B'|]. split; [exact C'|].
  intros nm Hn. split; [apply HP; destruct Hn as [<-|[<-|[<-|[]]]]; split; discriminate|]. split; [rewrite Q1; destruct Hn as [<-|[<-|[<-|[]]]]; reflexivity|]. split; [apply HRc; destruct Hn as [<-|[<-|[<-|[]]]]; simpl; auto|apply HRc'; exact Hn].
Qed.
End Examples.

Print Assumptions C08_contributions.
Print Assumptions C08_setup.
Print Assumptions C08_switched_off.
Print Assumptions C08_processor.
