(** Laws of the signals of a successful run. *)
Require Import Verif.PyBase Verif.PyLemmas Verif.ConfigModel Verif.ArrayModel Verif.ArraySpec Verif.ArrayProofs Verif.ArrayPaths
  Verif.LoggerModel Verif.LoggerSpec Verif.LoggerProofs Verif.SimModel Verif.SimSpec Verif.SimRefine Verif.SimRun Verif.SimDiag Verif.SimLoop
  Verif.SignalSpec Verif.SignalPass Verif.SignalRun Verif.SignalLaw Verif.SignalInv Verif.SignalStart Verif.RunSpec.
Set Implicit Arguments.
Arguments Z.add : simpl never.
Arguments Z.sub : simpl never.
Arguments Z.mul : simpl never.
Ltac Zify.zify_post_hook ::= Z.div_mod_to_equations.

Section Law.
Context {E : AEnv} {S : SEnv}.
Notation arr := (arr Pos Src).
Variables (i : info) (c : coll E) (procs : list (@proc E S)) (diags : dict (diag D)) (st : sim).
Hypothesis HX : experiment i c procs.
Hypothesis HD : good_diags i diags.
Hypothesis HR : run_simulation i c procs diags = Ok st.
Notation N := (Z.of_nat (run_length i procs)).
Notation sg := (signals_of i c procs).
Notation ds := (dims_of i c procs).

Lemma blocks_supported : zlen procs <= 1 -> blocks_ok procs.
Proof.
  intros H. pose proof (ex_sizes HX) as HS. unfold supported in HS. destruct procs as [|p [|q l]]; constructor; try lia; auto.
  rewrite !zlen_cons in H. pose proof (zlen_nonneg l). lia.
Qed.
Lemma early_supported : zlen procs <= 1 -> 1 <= first_request (early_start i).
Proof.
  intros H. destruct (supported_sizes i procs (ex_sizes HX) H) as ((Z1 & Z2 & Z3) & Hb & _). unfold early_start.
  destruct (start_sources_before_0 i); simpl; lia.
Qed.

Lemma run_facts : exists r P,
  zlen procs <= 1 /\ blocks_ok procs /\ ref_dims (save_source_contributions i) c procs = Ok ds /\
  ref_run (save_source_contributions i) (early_start i) c procs (run_length i procs) = Ok r /\ sg = r_tl r /\
  sm_coll st = r_coll r /\ sm_procs st = r_procs r /\ sm_n st = N /\
  names_ok (save_source_contributions i) ds c /\
  (forall t s m, t <= 0 -> P t s m = path_of c s m) /\
  (forall inf t s m a0 b0, c_info c = Some inf -> 1 <= t <= N -> In s (c_src c) -> In m (c_mic c) ->
       the_array c s a0 -> the_array c m b0 -> dynamic a0 || dynamic b0 = true ->
       exists ty g1 g2, lookup2 (c_ptypes c) s m = Some ty /\
         made_path inf g1 (placed_at a0 (last_update (array_update_freq inf) t)) (placed_at b0 (last_update (array_update_freq inf) t)) ty g2 (P t s m)) /\
  (forall t s m, 1 <= t <= N -> In s (c_src c) -> In m (c_mic c) -> static_pair c s m -> P t s m = path_of c s m) /\
  Law (save_source_contributions i) ds c procs (first_request (early_start i)) P N r /\
  start_law (save_source_contributions i) (early_start i) c (r_tl r) /\
  (forall nm d0, dget diags nm = Some d0 ->
      exists d, dget (sm_diags st) nm = Some d /\
        seen i (max_block_size i procs) ds (proc_after (save_source_contributions i) (early_start i) c procs)
          (run_length i procs) (r_tl r) nm d0 d (sm_out st)).
Proof.
  destruct HD as [HD1 HD2].
  destruct (run_refines c procs diags (ex_sizes HX) HD1 HD2 HR) as (ds0 & r & H1 & Hds & Hr & Hw & C1 & C2 & C3 & C4 & _ & _ & C7).
  assert (Eds : ds = ds0) by (unfold dims_of; rewrite Hds; auto). subst ds0.
  pose proof (blocks_supported H1) as Hb. pose proof (early_supported H1) as He.
  destruct (ref_law _ _ _ (ex_coll HX) (ex_paths HX) (ex_counts HX) H1 Hb (ex_dict HX) He Hds Hr) as (P & L1 & L2 & L3 & L4 & L5).
  exists r, P. repeat (split; [assumption|]).
  split; [unfold signals_of; rewrite Hr; auto|]. repeat (split; [assumption|]).
  split; [eapply ref_dims_names; eauto; apply HX|]. repeat (split; [assumption|]). assumption.
Qed.

(** every frame has the number of channels of its signal *)
Theorem signal_width nm d t : dget ds nm = Some d -> zlen (sg nm t) = Z.max 0 d.
Proof.
  destruct HD as [HD1 HD2].
  destruct (run_refines c procs diags (ex_sizes HX) HD1 HD2 HR) as (ds0 & r & H1 & Hds & Hr & Hw & _).
  unfold dims_of, signals_of. rewrite Hds, Hr. apply Hw.
Qed.
Lemma mix_zeros n l : mix_on (zeros n) n l = mix n l.
Proof.
  unfold mix_on, mix, vsum. apply map_ext_in. intros j Hj. f_equal. apply In_zrange in Hj. unfold chan, zeros. rewrite zget_zrep. destruct ((0 <=? j) && (j <? n)); auto.
Qed.
Lemma silent_array k a : the_array c k a -> silent ds k = zeros (a_num a).
Proof.
  intros Ha. destruct run_facts as (r & P & H1 & Hb & Hds & Hr & Es & C1 & C2 & C3 & HN & _).
  unfold silent, silence. rewrite (no_dim HN Ha). auto.
Qed.

(** microphones, any processor *)
Theorem mic_law m b t : In m (c_mic c) -> the_array c m b -> stationary c -> 0 <= t <= N ->
  sg m t = mix_on (written ds sg procs N m t) (a_num b) (map (fun s => response (path_of c s m) (sg s) t) (c_src c)).
Proof.
  intros Hm Hb0 HSt Ht. pose proof (silent_array Hb0) as Hsil.
  destruct run_facts as (r & P & H1 & Hb & Hds & Hr & Es & C1 & C2 & C3 & HN & P0 & Pm & Ps & L & St & _). rewrite Es in *.
  destruct (Z.eq_dec t 0) as [->|].
  - rewrite (st_mic St Hm Hb0) by lia. unfold start_mic. assert (early_start i = None \/ exists n, early_start i = Some n /\ 1 <= n) as Q.
    { pose proof (early_supported H1). unfold early_start in *. destruct (start_sources_before_0 i); auto. right. eexists; split; eauto. }
    assert (written ds (r_tl r) procs N m 0 = zeros (a_num b)) as ->.
    { rewrite <- Hsil. unfold written. destruct procs as [|p [|]]; auto. }
    rewrite mix_zeros. destruct Q as [->|(n & -> & Hn)]; simpl; auto. destruct (Z.leb_spec (1 - n) 0); [|lia]. auto.
  - rewrite (l_out L Hm Hb0) by lia. f_equal. apply map_ext_in. intros s Hs. rewrite Ps; auto; [lia|].
    intros a b' Ha' Hb'. split; eapply HSt; eauto.
Qed.
Lemma untouched_silent m b t : the_array c m b -> mic_untouched procs m -> written ds sg procs N m t = zeros (a_num b).
Proof.
  intros Hb Hu. rewrite <- (silent_array Hb). unfold written. destruct procs as [|p [|]]; auto. inversion Hu as [|x l Hp _]; subst.
  unfold output_of. rewrite Hp. destruct (_ && _); auto.
Qed.

(** microphones that the processor leaves alone, moving or not: the paths in force at time t *)
Theorem mic_law_moving : exists P : Z -> string -> string -> path V,
  (forall t s m, t <= 0 -> P t s m = path_of c s m) /\
  (forall t s m, 1 <= t <= N -> In s (c_src c) -> In m (c_mic c) ->
     (forall a b, the_array c s a -> the_array c m b -> a_traj a = None /\ a_traj b = None) -> P t s m = path_of c s m) /\
  (forall inf t s m a b, c_info c = Some inf -> 1 <= t <= N -> In s (c_src c) -> In m (c_mic c) ->
     the_array c s a -> the_array c m b -> a_traj a <> None \/ a_traj b <> None ->
     exists ty g1 g2, lookup2 (c_ptypes c) s m = Some ty /\
       made_path inf g1 (placed_at a (last_update (array_update_freq inf) t))
                        (placed_at b (last_update (array_update_freq inf) t)) ty g2 (P t s m)) /\
  (forall m b t, In m (c_mic c) -> the_array c m b -> 0 <= t <= N ->
     sg m t = mix_on (written ds sg procs N m t) (a_num b) (map (fun s => response (P t s m) (sg s) t) (c_src c))) /\
  (save_source_contributions i = true -> forall s m t, In s (c_src c) -> In m (c_mic c) -> 0 <= t <= N ->
     sg (contrib s m) t = response (P t s m) (sg s) t).
Proof.
  pose proof mix_zeros as HZ. pose proof silent_array as Hsil.
  destruct run_facts as (r & P & H1 & Hb & Hds & Hr & Es & C1 & C2 & C3 & HN & P0 & Pm & Ps & L & St & _). rewrite Es in *.
  pose proof (early_supported H1) as He.
  exists P. split; auto. split; [auto|]. split.
  - intros inf t s m a b Hi Ht Hs Hm Ha Hb0 Hd. apply Pm; auto. unfold dynamic.
    destruct (a_traj a), (a_traj b); auto. destruct Hd; congruence.
  - split.
    + intros m b t Hm Hb0 Ht. destruct (Z.eq_dec t 0) as [->|]; [|apply (l_out L Hm Hb0); lia].
      assert (written ds (r_tl r) procs N m 0 = zeros (a_num b)) as ->.
      { rewrite <- (Hsil _ _ Hb0). unfold written. destruct procs as [|p [|]]; auto. }
      rewrite HZ. rewrite (st_mic St Hm Hb0) by lia. unfold start_mic.
      destruct (early_start i) as [n|]; simpl in *; [destruct (Z.leb_spec (1 - n) 0); [simpl|lia]|];
      f_equal; apply map_ext; intros s; rewrite P0; auto; lia.
    + intros Hc s m t Hs Hm Ht. destruct (Z.eq_dec t 0) as [->|]; [|apply (l_con L); auto; lia].
      destruct (mic_array (ex_coll HX) m Hm) as (b & Hmb & _).
      rewrite (st_con St Hc s Hs Hm Hmb) by lia. rewrite P0 by lia. destruct (Z.leb_spec (1 - first_request (early_start i)) 0); auto; lia.
Qed.

(** free sources *)
Theorem free_law k a : In k (c_free c) -> the_array c k a -> exists src, a_source a = Some src /\
  forall t, t <= N -> sg k t = free_signal (a_num a) src (first_request (early_start i)) t.
Proof.
  intros Hk Ha.
  destruct run_facts as (r & P & H1 & Hb & Hds & Hr & Es & C1 & C2 & C3 & HN & P0 & Pm & Ps & L & St & _). rewrite Es in *.
  destruct (l_draw L Hk Ha) as (src & a' & D1 & D2 & D3 & D4). exists src. auto.
Qed.

(** signals that only the processor writes *)
Theorem written_law nm t : processor_signal i c nm -> sg nm t = written ds sg procs N nm t.
Proof.
  intros (W1 & W2 & W3).
  destruct run_facts as (r & P & H1 & Hb & Hds & Hr & Es & C1 & C2 & C3 & HN & P0 & Pm & Ps & L & St & _). rewrite Es in *.
  apply (l_rest L); auto. destruct (save_source_contributions i); auto.
Qed.
(** nobody plays before the start *)
Theorem source_before_start s a t : In s (c_src c) -> the_array c s a -> t < 1 - first_request (early_start i) -> sg s t = zeros (a_num a).
Proof.
  intros Hs Ha Ht. destruct (in_dec string_dec s (c_free c)) as [Hf|Hf].
  - destruct (free_law Hf Ha) as (src & _ & F). rewrite F by (destruct run_facts as (r & P & H1 & _); pose proof (early_supported H1); lia).
    unfold free_signal. destruct (Z.ltb_spec t (1 - first_request (early_start i))); auto; lia.
  - rewrite written_law.
    + rewrite <- (silent_array Ha). destruct run_facts as (r & P & H1 & Hb & _). pose proof (early_supported H1).
      unfold written. destruct procs as [|p [|]]; auto. inversion Hb; subst.
      destruct (Z.leb_spec 1 (t / pr_bs p)); auto. nia.
    + split; auto. split; [intros Hm; eapply mic_not_src; eauto; apply HX|]. intros Hc s' m' Hs' Hm'.
      destruct run_facts as (r & P & H1 & Hb & Hds & Hr & Es & C1 & C2 & C3 & HN & _). apply (no_arr HN Hc) with (a := a); auto.
Qed.
(** before time 0 *)
Theorem mic_before m b t : In m (c_mic c) -> the_array c m b -> t <= 0 ->
  sg m t = match start_mic (early_start i) t with
           | Some u => mix (a_num b) (map (fun s => response (path_of c s m) (sg s) u) (c_src c))
           | None => zeros (a_num b)
           end.
Proof.
  intros Hm Hb0 Ht. destruct run_facts as (r & P & H1 & Hb & Hds & Hr & Es & C1 & C2 & C3 & HN & P0 & Pm & Ps & L & St & _). rewrite Es in *.
  apply (st_mic St); auto.
Qed.
(** the processor after the run *)
Theorem proc_final : zlen procs <= 1 /\ sm_n st = N /\
  sm_procs st = map (fun p => mkProc (pr_bs p) (pr_hist p) (pr_locals p) (pr_step p)
                                (state_after ds sg p (Z.to_nat (N / pr_bs p)))) procs.
Proof.
  destruct run_facts as (r & P & H1 & Hb & Hds & Hr & Es & C1 & C2 & C3 & HN & P0 & Pm & Ps & L & St & _). rewrite Es in *.
  split; auto. split; auto. rewrite C2. apply (l_procs L).
Qed.
End Law.
