(** C109: superposition.  If a source plays a linear combination of two signals, everything in the simulation is the linear combination of what it would be with each of them. *)
Require Import Verif.PyBase Verif.PyLemmas Verif.ConfigModel Verif.ArrayModel Verif.ArraySpec Verif.ArrayProofs Verif.ArrayPaths Verif.LoggerModel Verif.LoggerSpec Verif.LoggerProofs
  Verif.SimModel Verif.SimSpec Verif.SimRefine Verif.SimRun Verif.SimDiag Verif.SimLoop Verif.SignalSpec Verif.SignalPass Verif.SignalRun Verif.SignalLaw Verif.SignalInv Verif.RunSpec Verif.RunLaw Verif.DiagRun
  Verif.DiagModel Verif.DiagSpec Verif.DiagProofs Verif.DiagCtorModel Verif.DiagCtorProofs Verif.SaveProps Verif.ProcModel Verif.Demo Verif.DemoRun Verif.DemoSpy Verif.SignalProps Verif.DemoFun Verif.CausalProps.
Require Import Ring.
Set Implicit Arguments.
Arguments Z.add : simpl never.
Arguments Z.sub : simpl never.
Arguments Z.mul : simpl never.
Ltac Zify.zify_post_hook ::= Z.div_mod_to_equations.

Section Linear.
Context {E : AEnv} {DE : DEnv}.
Notation arr := (arr Pos Src).
Variables PS0 D0 Out0 : Type.
Variable dsave0 : D0 -> option PS0 -> dict (list frame) -> Z * Z -> res D0.
Variable dout0 : D0 -> Z -> res Out0.
Local Instance LiS : SEnv := full dsave0 dout0.
(** samples are added and multiplied like exact numbers (rounding is not modelled) *)
Hypothesis Numbers : semi_ring_theory (v0 : V) v1 vadd vmul eq.
Add Ring VNumbers : Numbers.
(** the two factors *)
Variables p q : V.
(** the frame z is p times the frame x plus q times the frame y *)
Definition mixes (x y z : frame) : Prop := zlen y = zlen x /\ zlen z = zlen x /\ forall j, chan z j = vadd (vmul p (chan x j)) (vmul q (chan y j)).
(** the same for blocks of named signals *)
Definition blocks_mix (x y z : option (list frame)) : Prop :=
  match x, y, z with
  | Some x, Some y, Some z => zlen y = zlen x /\ zlen z = zlen x /\ forall k u v w, zget x k = Some u -> zget y k = Some v -> zget z k = Some w -> mixes u v w
  | None, None, None => True
  | _, _, _ => False
  end.
Definition signals_mix (x y z : dict (list frame)) : Prop := forall nm, blocks_mix (dget x nm) (dget y nm) (dget z nm).
(** a processor is linear if its answers mix whenever the signals it has been shown mix; [R] relates its three states *)
Definition linear (pr : @proc E LiS) : Prop := exists R : PS -> PS -> PS -> Prop, R (pr_state pr) (pr_state pr) (pr_state pr) /\
  forall s1 s2 s3 w1 w2 w3, R s1 s2 s3 -> signals_mix w1 w2 w3 ->
    R (fst (pr_step pr s1 w1)) (fst (pr_step pr s2 w2)) (fst (pr_step pr s3 w3)) /\ signals_mix (snd (pr_step pr s1 w1)) (snd (pr_step pr s2 w2)) (snd (pr_step pr s3 w3)).

Lemma mixes_nil : mixes [] [] [].
Proof. split; auto. split; auto. intros j. unfold chan. rewrite zget_nil. ring. Qed.
Lemma mixes_zeros n : mixes (zeros n) (zeros n) (zeros n).
Proof. split; auto. split; auto. intros j. unfold chan, zeros. rewrite zget_zrep. destruct ((0 <=? j) && (j <? n)); ring. Qed.
Lemma mixes_const n u v w : w = vadd (vmul p u) (vmul q v) -> mixes (zrep n u) (zrep n v) (zrep n w).
Proof. intros ->. unfold mixes. rewrite !zlen_zrep. split; auto. split; auto. intros j. unfold chan. rewrite !zget_zrep. destruct ((0 <=? j) && (j <? n)); ring. Qed.
Lemma mixes_map n (f g h : Z -> V) : (forall j, 0 <= j < n -> h j = vadd (vmul p (f j)) (vmul q (g j))) -> mixes (map f (zrange 0 n)) (map g (zrange 0 n)) (map h (zrange 0 n)).
Proof.
  intros H. unfold mixes, zlen. rewrite !map_length. split; auto. split; auto. intros j. unfold chan. rewrite !zget_map, !zget_zrange. destruct ((0 <=? j) && (j <? n - 0)) eqn:Q; cbn [option_map]; [|ring]. apply H. lia.
Qed.
Lemma sum_mixes {A} (f g h : A -> V) l : (forall a, In a l -> h a = vadd (vmul p (f a)) (vmul q (g a))) -> forall x y z, z = vadd (vmul p x) (vmul q y) ->
  fold_left vadd (map h l) z = vadd (vmul p (fold_left vadd (map f l) x)) (vmul q (fold_left vadd (map g l) y)).
Proof. induction l as [|a l IH]; intros H x y z ->; cbn [map fold_left]; auto. apply IH; [intros; apply H; right; auto|]. rewrite H by (left; auto). ring. Qed.
Lemma vsum_mixes {A} (f g h : A -> V) l : (forall a, In a l -> h a = vadd (vmul p (f a)) (vmul q (g a))) -> vsum (map h l) = vadd (vmul p (vsum (map f l))) (vmul q (vsum (map g l))).
Proof. intros H. unfold vsum. apply sum_mixes; auto. ring. Qed.
Lemma response_mixes a b c x y z t : same_path b a -> same_path c a -> (forall u, u <= t -> mixes (x u) (y u) (z u)) -> mixes (response a x t) (response b y t) (response c z t).
Proof.
  intros Pb Pc H. rewrite (response_same (t := t) y y Pb (fun _ _ => eq_refl)), (response_same (t := t) z z Pc (fun _ _ => eq_refl)). apply mixes_map. intros j Hj. unfold convolved. apply vsum_mixes. intros s _. apply vsum_mixes. intros k Hk. apply In_zrange in Hk.
  destruct (H (t - k)) as (_ & _ & ->); [lia|]. ring.
Qed.
Lemma mix_on_mixes {A} n bx by_ bz (l : list A) (f g h : A -> frame) : mixes bx by_ bz -> (forall a, In a l -> mixes (f a) (g a) (h a)) -> mixes (mix_on bx n (map f l)) (mix_on by_ n (map g l)) (mix_on bz n (map h l)).
Proof.
  intros (_ & _ & B) H. apply mixes_map. intros j Hj. rewrite !map_map. apply sum_mixes; [|apply B]. intros a Ha. destruct (H a Ha) as (_ & _ & K). apply K.
Qed.
Lemma mix_mixes {A} n (l : list A) (f g h : A -> frame) : (forall a, In a l -> mixes (f a) (g a) (h a)) -> mixes (mix n (map f l)) (mix n (map g l)) (mix n (map h l)).
Proof. intros H. rewrite <- !mix_zeros. apply mix_on_mixes; auto. apply mixes_zeros. Qed.

Lemma one_frame {A} (x : list A) : (exists a, x = [a]) \/ (zlen x <> 1 /\ forall (B : Type) (f : A -> B) (d : B), match x with [a] => f a | _ => d end = d).
Proof. destruct x as [|a [|b x]]; [right|left; eauto|right]; split; auto; rewrite ?zlen_cons; [cbn; lia|pose proof (zlen_nonneg x); lia]. Qed.
Lemma shown_mixes d x y z k : blocks_mix (Some x) (Some y) (Some z) -> mixes (shown d x k) (shown d y k) (shown d z k).
Proof.
  intros (L1 & L2 & H).
  assert (K : forall u v w, mixes u v w -> mixes (match u with [e] => zrep d e | _ => u end) (match v with [e] => zrep d e | _ => v end) (match w with [e] => zrep d e | _ => w end)).
  { intros u v w (M1 & M2 & M3). destruct (one_frame u) as [[e ->]|[N U]].
    - destruct (one_frame v) as [[e' ->]|[N _]]; [|change (zlen [e]) with 1 in M1; contradiction]. destruct (one_frame w) as [[e2 ->]|[N _]]; [|change (zlen [e]) with 1 in M2; contradiction]. apply mixes_const. exact (M3 0).
    - destruct (one_frame v) as [[e' ->]|[N' V']]; [change (zlen [e']) with 1 in M1; congruence|]. destruct (one_frame w) as [[e2 ->]|[N2 W']]; [change (zlen [e2]) with 1 in M2; congruence|]. rewrite U, V', W'. repeat split; auto. }
  unfold shown. apply K. clear K. destruct (one_frame x) as [[e ->]|[N U]].
  - destruct (one_frame y) as [[e' ->]|[N _]]; [|change (zlen [e]) with 1 in L1; contradiction]. destruct (one_frame z) as [[e2 ->]|[N _]]; [|change (zlen [e]) with 1 in L2; contradiction]. apply (H 0 e e' e2); reflexivity.
  - destruct (one_frame y) as [[e' ->]|[N' V']]; [change (zlen [e']) with 1 in L1; congruence|]. destruct (one_frame z) as [[e2 ->]|[N2 W']]; [change (zlen [e2]) with 1 in L2; congruence|]. rewrite U, V', W'.
    destruct (zget x k) as [u|] eqn:Qx.
    + pose proof (zget_some_range _ _ Qx) as Rk. destruct (@zget_in_range _ y k ltac:(lia)) as [v Qy]. destruct (@zget_in_range _ z k ltac:(lia)) as [w Qz]. rewrite Qy, Qz. eapply H; eauto.
    + assert (forall l : list frame, zlen l = zlen x -> zget l k = None) as O. { intros l Hl. destruct (zget l k) eqn:Ql; auto. pose proof (zget_some_range _ _ Ql) as Rk. destruct (@zget_in_range _ x k ltac:(lia)) as [u Qu]. congruence. }
      rewrite (O y L1), (O z L2). apply mixes_nil.
Qed.

Lemma dget_window ds (tl : timeline) a b nm : dget (window ds tl a b) nm = option_map (fun _ => map (tl nm) (zrange a b)) (dget ds nm).
Proof. unfold window. induction ds as [|[n d] ds IH]; cbn [map dget fst snd]; auto. destruct (String.eqb_spec nm n) as [->|]; auto. Qed.
Lemma window_mixes ds (x y z : timeline) a b : (forall nm v, v < b -> mixes (x nm v) (y nm v) (z nm v)) -> signals_mix (window ds x a b) (window ds y a b) (window ds z a b).
Proof.
  intros H nm. rewrite !dget_window. destruct (dget ds nm); cbn [option_map blocks_mix]; auto. unfold zlen. rewrite !map_length. split; auto. split; auto. intros k u v w. rewrite !zget_map, zget_zrange.
  destruct ((0 <=? k) && (k <? b - a)) eqn:Q; cbn [option_map]; [|discriminate]. intros U V' W. injection U as <-. injection V' as <-. injection W as <-. apply H. lia.
Qed.
Lemma states_mix ds (x y z : timeline) (pr : @proc E LiS) (R : PS -> PS -> PS -> Prop) : 1 <= pr_bs pr -> R (pr_state pr) (pr_state pr) (pr_state pr) ->
  (forall s1 s2 s3 w1 w2 w3, R s1 s2 s3 -> signals_mix w1 w2 w3 ->
    R (fst (pr_step pr s1 w1)) (fst (pr_step pr s2 w2)) (fst (pr_step pr s3 w3)) /\ signals_mix (snd (pr_step pr s1 w1)) (snd (pr_step pr s2 w2)) (snd (pr_step pr s3 w3))) ->
  forall k, (forall nm v, v < Z.of_nat k * pr_bs pr -> mixes (x nm v) (y nm v) (z nm v)) -> R (state_after ds x pr k) (state_after ds y pr k) (state_after ds z pr k).
Proof.
  intros Hb R0 RS. induction k as [|k IH]; intros H; cbn [state_after]; auto. apply RS; [apply IH; intros nm v Hv; apply H; nia|]. apply window_mixes. auto.
Qed.
Lemma written_mixes ds (x y z : timeline) (procs : list (@proc E LiS)) N nm u : blocks_ok procs -> Forall linear procs -> (forall nm v, v < u -> mixes (x nm v) (y nm v) (z nm v)) ->
  mixes (written ds x procs N nm u) (written ds y procs N nm u) (written ds z procs N nm u).
Proof.
  intros Hb HL H. assert (S0 : mixes (silent ds nm) (silent ds nm) (silent ds nm)) by (unfold silent, silence; destruct (dget ds nm); [apply mixes_zeros|apply mixes_nil]).
  destruct procs as [|pr [|q' procs]]; cbn [written]; auto. inversion Hb; subst. inversion HL as [|? ? (R & R0 & RS) _]; subst.
  destruct (Z.leb_spec 1 (u / pr_bs pr)); cbn [andb]; auto. destruct (Z.leb_spec (u / pr_bs pr * pr_bs pr) N); auto.
  set (k := Z.to_nat (u / pr_bs pr)). assert (Hk : Z.of_nat k * pr_bs pr <= u) by (unfold k; rewrite Z2Nat.id by lia; nia). assert (K1 : (1 <= k)%nat) by (unfold k; lia).
  assert (O : signals_mix (output_of ds x pr k) (output_of ds y pr k) (output_of ds z pr k)).
  { unfold output_of. apply RS.
    - apply states_mix; auto. intros nm' v Hv. apply H. nia.
    - apply window_mixes. intros nm' v Hv. apply H. lia. }
  specialize (O nm). destruct (dget (output_of ds x pr k) nm) as [a|], (dget (output_of ds y pr k) nm) as [b|], (dget (output_of ds z pr k) nm) as [c|]; try contradiction; auto. apply shown_mixes. exact O.
Qed.

Lemma experiment_li h (j : info) (d : coll E) (ps : list (@proc E LiS)) : experiment j d ps -> experiment j (with_sources h d) ps.
Proof. exact (@experiment_sources _ _ _ _ _ dsave0 dout0 h j d ps). Qed.
(** An experiment and the same with two other sets of generators in its free sources *)
Variables (i : info) (f g : string -> option Src) (c : coll E) (procs : list (@proc E LiS)) (diags diags' diags2 : dict (diag D)) (st st' st2 : sim).
Hypothesis HX : experiment i c procs.
Hypothesis HD : good_diags i diags.
Hypothesis HR : run_simulation i c procs diags = Ok st.
Hypothesis HD' : good_diags i diags'.
Hypothesis HR' : run_simulation i (with_sources f c) procs diags' = Ok st'.
Hypothesis HD2 : good_diags i diags2.
Hypothesis HR2 : run_simulation i (with_sources g c) procs diags2 = Ok st2.
(** the third generator of the array k plays p times the first plus q times the second *)
Definition plays_mix (k : string) : Prop := exists a x y z, the_array c k a /\ a_source a = Some x /\ f k = Some y /\ g k = Some z /\
  let n := first_request (early_start i) in forall t, mixes (free_signal (a_num a) x n t) (free_signal (a_num a) y n t) (free_signal (a_num a) z n t).

Definition steady : Prop := stationary c \/ exists inf, c_info c = Some inf /\ forall s m ty, In s (c_src c) -> In m (c_mic c) -> lookup2 (c_ptypes c) s m = Some ty -> repeatable inf ty.
(** what run_facts says about the paths *)
Definition path_facts (c : coll E) (P : Z -> string -> string -> path V) : Prop :=
  (forall t s m, t <= 0 -> P t s m = path_of c s m) /\
  (forall inf t s m a0 b0, c_info c = Some inf -> 1 <= t <= Z.of_nat (run_length i procs) -> In s (c_src c) -> In m (c_mic c) ->
       the_array c s a0 -> the_array c m b0 -> dynamic a0 || dynamic b0 = true ->
       exists ty g1 g2, lookup2 (c_ptypes c) s m = Some ty /\
         made_path inf g1 (placed_at a0 (last_update (array_update_freq inf) t)) (placed_at b0 (last_update (array_update_freq inf) t)) ty g2 (P t s m)) /\
  (forall t s m, 1 <= t <= Z.of_nat (run_length i procs) -> In s (c_src c) -> In m (c_mic c) -> static_pair c s m -> P t s m = path_of c s m).
Lemma run_paths h P P' : steady -> path_facts c P -> path_facts (with_sources h c) P' ->
  forall t s m, t <= Z.of_nat (run_length i procs) -> In s (c_src c) -> In m (c_mic c) -> same_path (P' t s m) (P t s m).
Proof.
  intros HP (P0 & Pm & Ps) (P0' & Pm' & Ps') t s m Ht Hs Hm. assert (Refl : forall p, same_path p p) by (intros p0; repeat split; auto).
  destruct (Z_le_gt_dec t 0); [rewrite P0, P0' by lia; apply Refl|].
  destruct (src_array (ex_coll HX) s Hs) as (a & Ha & _). destruct (mic_array (ex_coll HX) m Hm) as (b & Hmb & _).
  destruct (dynamic a || dynamic b) eqn:Q.
  - destruct HP as [HSt|(inf & Hi & HP)]. { unfold dynamic in Q. rewrite (HSt _ _ Ha), (HSt _ _ Hmb) in Q. discriminate. }
    destruct (Pm inf t s m a b Hi (ltac:(lia)) Hs Hm Ha Hmb Q) as (ty & g1 & g2 & T1 & M1).
    destruct (Pm' inf t s m _ _ Hi (ltac:(lia)) Hs Hm (array_sources h Ha) (array_sources h Hmb) Q) as (ty' & g1' & g2' & T1' & M1').
    assert (ty' = ty) by (unfold with_sources, set_arrays in T1'; cbn [c_ptypes] in T1'; congruence). subst ty'.
    assert (Al : forall (a : arr) x u, alike (placed_at (give_source a x) u) (placed_at a u)) by (intros a0 x u; unfold placed_at; cbn [give_source a_traj]; destruct (a_traj a0); repeat split).
    exact (HP s m ty Hs Hm T1 _ _ _ _ _ _ _ _ _ _ (Al _ _ _) (Al _ _ _) M1' M1).
  - assert (D1 : a_traj a = None) by (unfold dynamic in Q; destruct (a_traj a); [discriminate|reflexivity]). assert (D2 : a_traj b = None) by (unfold dynamic in Q; destruct (a_traj a), (a_traj b); try discriminate; reflexivity).
    rewrite Ps, Ps'; [apply Refl|lia|exact Hs|exact Hm| |lia|exact Hs|exact Hm|].
    + intros a1 b1 A1 B1. destruct (sources_array A1) as (a2 & A2 & ->). destruct (sources_array B1) as (b2 & B2 & ->). unfold the_array in *. cbn [give_source a_traj]. split; congruence.
    + intros a1 b1 A1 B1. unfold the_array in *. split; congruence.
Qed.

(** C109.  Stationary arrays, or moving ones with paths that do not depend on random numbers; no processor, or a linear one. *)
Theorem C109_signals : (forall k, In k (c_free c) -> plays_mix k) -> steady -> Forall linear procs ->
  forall nm t, t <= Z.of_nat (run_length i procs) -> mixes (signals_of i c procs nm t) (signals_of i (with_sources f c) procs nm t) (signals_of i (with_sources g c) procs nm t).
Proof.
  intros HF HP HL. pose proof (experiment_li f HX) as HX'. pose proof (experiment_li g HX) as HX2.
  destruct (run_facts HX HD HR) as (r & P & H1 & Hb & Hds & Hr & Es & C1 & C2 & C3 & HN & P0 & Pm & Ps & L & St & _).
  destruct (run_facts HX' HD' HR') as (r' & P' & H1' & Hb' & Hds' & Hr' & Es' & C1' & C2' & C3' & HN' & P0' & Pm' & Ps' & L' & St' & _).
  destruct (run_facts HX2 HD2 HR2) as (r2 & P2 & H12 & Hb2 & Hds2 & Hr2 & Es2 & C12 & C22 & C32 & HN2 & P02 & Pm2 & Ps2 & L2 & St2 & _).
  pose proof (@run_paths f P P' HP (conj P0 (conj Pm Ps)) (conj P0' (conj Pm' Ps'))) as Path1. pose proof (@run_paths g P P2 HP (conj P0 (conj Pm Ps)) (conj P02 (conj Pm2 Ps2))) as Path2.
  assert (ED : forall h, dims_of i (with_sources h c) procs = dims_of i c procs) by (intros h; unfold dims_of; rewrite (dims_sources h _ _ (ex_coll HX)); reflexivity). rewrite !ED in *. rewrite Es, Es', Es2. clear Es Es' Es2 Pm Ps Pm' Ps' Pm2 Ps2.
  set (ct := save_source_contributions i) in *. set (n0 := first_request (early_start i)) in *. set (ds := dims_of i c procs) in *. set (N := Z.of_nat (run_length i procs)) in *.
  assert (Free : forall k t, In k (c_free c) -> t <= N -> mixes (r_tl r k t) (r_tl r' k t) (r_tl r2 k t)).
  { intros k t Hk Ht. destruct (HF k Hk) as (a & x & y & z & Ha & Hx & Hy & Hz & Q). destruct (l_draw L Hk Ha) as (x1 & _ & X1 & _ & _ & X2). destruct (l_draw L' Hk (array_sources f Ha)) as (y1 & _ & Y1 & _ & _ & Y2). destruct (l_draw L2 Hk (array_sources g Ha)) as (z1 & _ & Z1 & _ & _ & Z2).
    rewrite X2, Y2, Z2 by lia. cbn [give_source a_source a_num] in *. replace x1 with x by congruence. replace y1 with y by congruence. replace z1 with z by congruence. apply Q. }
  assert (Kinds : forall nm, In nm (c_free c) \/ In nm (c_mic c) \/ (ct = true /\ exists s m, In s (c_src c) /\ In m (c_mic c) /\ nm = contrib s m) \/
    (~ In nm (c_free c) /\ ~ In nm (c_mic c) /\ (ct = false \/ forall s m, In s (c_src c) -> In m (c_mic c) -> nm <> contrib s m))).
  { intros nm. destruct (in_dec string_dec nm (c_free c)); auto. destruct (in_dec string_dec nm (c_mic c)); auto. right; right. destruct (bool_dec ct true) as [Qc|Qc].
    2: { right. split; auto. split; auto. left. destruct ct; congruence. }
    destruct (in_dec string_dec nm (map (fun sm => contrib (fst sm) (snd sm)) (list_prod (c_src c) (c_mic c)))) as [Hin|Hin].
    - left. split; auto. apply in_map_iff in Hin as ([s m] & <- & Hin). apply in_prod_iff in Hin as [A B]. eauto.
    - right. split; auto. split; auto. right. intros s m Hs Hm ->. apply Hin. apply in_map_iff. exists (s, m). split; auto. apply in_prod; auto. }
  assert (SrcKind : forall s, In s (c_src c) -> ~ In s (c_mic c) /\ (ct = false \/ forall s0 m, In s0 (c_src c) -> In m (c_mic c) -> s <> contrib s0 m)).
  { intros s Hs. split; [intros Hm; eapply mic_not_src; eauto; apply HX|]. destruct (src_array (ex_coll HX) s Hs) as (a & Ha & _). destruct (bool_dec ct true) as [Qc|Qc]; [right|left; destruct ct; congruence]. intros s0 m Hs0 Hm. apply (no_arr HN Qc) with (a := a); auto. }
  (* a source at a time before which everything mixes *)
  assert (Source : forall s u, In s (c_src c) -> u <= N -> (u <= 0 \/ forall nm v, v < u -> mixes (r_tl r nm v) (r_tl r' nm v) (r_tl r2 nm v)) -> mixes (r_tl r s u) (r_tl r' s u) (r_tl r2 s u)).
  { intros s u Hs Hu IH. destruct (in_dec string_dec s (c_free c)) as [Hf|Hf]; [apply Free; auto|]. destruct (SrcKind s Hs) as [Hnm W].
    rewrite (l_rest L Hf W (or_introl Hnm)), (l_rest L' (nm := s) Hf W (or_introl Hnm)), (l_rest L2 (nm := s) Hf W (or_introl Hnm)). destruct IH as [H0|IH]; [|apply written_mixes; auto].
    assert (Start : forall tl, written ds tl procs N s u = silent ds s). { intros tl. unfold written. destruct procs as [|pr [|]]; auto. inversion Hb; subst. destruct (Z.leb_spec 1 (u / pr_bs pr)); auto. nia. }
    rewrite !Start. unfold silent, silence. destruct (dget ds s); [apply mixes_zeros|apply mixes_nil]. }
  assert (Refl : forall p, same_path p p) by (intros p0; repeat split; auto).
  assert (Base : forall nm u, u <= 0 -> mixes (r_tl r nm u) (r_tl r' nm u) (r_tl r2 nm u)).
  { intros nm u Hu. assert (HN0 : 0 <= N) by (unfold N; lia). destruct (Kinds nm) as [K|[K|[(Qc & s & m & Hs & Hm & ->)|(K1 & K2 & K3)]]].
    - apply Free; auto; lia.
    - destruct (mic_array (ex_coll HX) nm K) as (b & Hmb & _). rewrite (st_mic St K Hmb Hu), (st_mic St' (m := nm) K (array_sources f Hmb) Hu), (st_mic St2 (m := nm) K (array_sources g Hmb) Hu). cbn [give_source a_num].
      destruct (start_mic (early_start i) u) as [v|] eqn:Qv; [|apply mixes_zeros]. apply mix_mixes. intros s Hs. apply response_mixes; [apply Refl|apply Refl|]. intros w Hw.
      assert (v <= 0) by (unfold start_mic in Qv; destruct (early_start i) as [n|]; [destruct ((1 - n <=? u) && (u <=? 0)); [|discriminate]; injection Qv as <-; lia|]; destruct (u <=? 0); [|discriminate]; injection Qv as <-; lia). apply Source; auto; lia.
    - destruct (mic_array (ex_coll HX) m Hm) as (b & Hmb & _). rewrite (st_con St Qc s Hs Hm Hmb Hu), (st_con St' Qc s Hs Hm (array_sources f Hmb) Hu), (st_con St2 Qc s Hs Hm (array_sources g Hmb) Hu). cbn [give_source a_num].
      destruct (1 - _ <=? u); [|apply mixes_zeros]. apply response_mixes; [apply Refl|apply Refl|]. intros w Hw. apply Source; auto; lia.
    - rewrite (l_rest L K1 K3 (or_introl K2)), (l_rest L' (nm := nm) K1 K3 (or_introl K2)), (l_rest L2 (nm := nm) K1 K3 (or_introl K2)).
      assert (Start : forall tl, written ds tl procs N nm u = silent ds nm). { intros tl. unfold written. destruct procs as [|pr [|]]; auto. inversion Hb; subst. destruct (Z.leb_spec 1 (u / pr_bs pr)); auto. nia. }
      rewrite !Start. unfold silent, silence. destruct (dget ds nm); [apply mixes_zeros|apply mixes_nil]. }
  assert (Step : forall n nm u, u <= Z.of_nat n -> u <= N -> mixes (r_tl r nm u) (r_tl r' nm u) (r_tl r2 nm u)).
  { induction n as [|n IH]; intros nm u Hu HuT; [apply Base; lia|]. destruct (Z_le_gt_dec u (Z.of_nat n)); [apply IH; lia|]. destruct (Z_le_gt_dec u 0); [apply Base; lia|].
    assert (Past : forall nm v, v < u -> mixes (r_tl r nm v) (r_tl r' nm v) (r_tl r2 nm v)) by (intros nm' v Hv; apply IH; lia).
    assert (Now : forall s v, In s (c_src c) -> v <= u -> mixes (r_tl r s v) (r_tl r' s v) (r_tl r2 s v)). { intros s v Hs Hv. destruct (Z.eq_dec v u) as [->|]; [|apply Past; lia]. apply Source; auto. }
    destruct (Kinds nm) as [K|[K|[(Qc & s & m & Hs & Hm & ->)|(K1 & K2 & K3)]]].
    - apply Free; auto.
    - destruct (mic_array (ex_coll HX) nm K) as (b & Hmb & _). rewrite (l_out L K Hmb), (l_out L' (m := nm) K (array_sources f Hmb)), (l_out L2 (m := nm) K (array_sources g Hmb)) by lia. cbn [give_source a_num].
      apply mix_on_mixes; [apply written_mixes; auto|]. intros s Hs. apply response_mixes; [apply Path1; auto; lia|apply Path2; auto; lia|]. intros v Hv. apply Now; auto.
    - rewrite (l_con L Qc s m Hs Hm), (l_con L' Qc s m Hs Hm), (l_con L2 Qc s m Hs Hm) by lia. apply response_mixes; [apply Path1; auto; lia|apply Path2; auto; lia|]. intros v Hv. apply Now; auto.
    - rewrite (l_rest L K1 K3 (or_introl K2)), (l_rest L' (nm := nm) K1 K3 (or_introl K2)), (l_rest L2 (nm := nm) K1 K3 (or_introl K2)). apply written_mixes; auto. }
  intros nm t Ht. apply (Step (Z.to_nat t)); lia.
Qed.
(** C109.  So the recordings are the same combination of each other. *)
Theorem C109_recorded : (forall k, In k (c_free c) -> plays_mix k) -> steady -> Forall linear procs ->
  forall dn dn' dn2 nm num, 0 <= num -> dget (dims_of i c procs) nm = Some num -> records i diags dn nm num -> records i diags' dn' nm num -> records i diags2 dn2 nm num ->
  exists x x' x2, recording i st dn x /\ recording i st' dn' x' /\ recording i st2 dn2 x2 /\ forall t, 0 <= t < tot_samples i -> mixes (x t) (x' t) (x2 t).
Proof.
  intros HF HP HL dn dn' dn2 nm num H0 Hn R R' R2. exists (signals_of i c procs nm), (signals_of i (with_sources f c) procs nm), (signals_of i (with_sources g c) procs nm).
  assert (ED : forall h, dget (dims_of i (with_sources h c) procs) nm = Some num) by (intros h; unfold dims_of; rewrite (dims_sources h _ _ (ex_coll HX)); exact Hn).
  split; [eapply (recorded_signal HX HD HR); eauto|]. split; [eapply (recorded_signal (experiment_li f HX) HD' HR'); eauto|]. split; [eapply (recorded_signal (experiment_li g HX) HD2 HR2); eauto|].
  intros t Ht. apply C109_signals; auto. pose proof (run_longer HX HD HR). lia.
Qed.
End Linear.

(* ------------------------------------------------------------------ C110 *)
Section Delay.
Context {E : AEnv} {DE : DEnv}.
Notation arr := (arr Pos Src).
Variables PS0 D0 Out0 : Type.
Variable dsave0 : D0 -> option PS0 -> dict (list frame) -> Z * Z -> res D0.
Variable dout0 : D0 -> Z -> res Out0.
Local Instance DeS : SEnv := full dsave0 dout0.
Hypothesis Numbers : semi_ring_theory (v0 : V) v1 vadd vmul eq.
Add Ring VNumbers2 : Numbers.
Variables (i : info) (f : string -> option Src) (c : coll E) (procs : list (@proc E DeS)) (diags diags' : dict (diag D)) (st st' : sim).
Hypothesis HX : experiment i c procs.
Hypothesis HD : good_diags i diags.
Hypothesis HR : run_simulation i c procs diags = Ok st.
Hypothesis HD' : good_diags i diags'.
Hypothesis HR' : run_simulation i (with_sources f c) procs diags' = Ok st'.
(** the new generator of the array k plays the same d samples later, after silence *)
Definition plays_later (d : Z) (k : string) : Prop := exists a x y, the_array c k a /\ a_source a = Some x /\ f k = Some y /\
  forall t, 0 <= t -> free_signal (a_num a) y 1 t = if t <? d then zeros (a_num a) else free_signal (a_num a) x 1 (t - d).
Lemma silent_response p x t : (forall u j, u <= t -> chan (x u) j = v0) -> response p x t = zeros (p_nm p).
Proof.
  intros H. unfold response, zeros. assert (Z0 : forall {A} (l : list A) (g : A -> V) z, z = v0 -> (forall a, In a l -> g a = v0) -> fold_left vadd (map g l) z = v0).
  { intros A l g. induction l as [|a l IH]; intros z -> Hg; cbn [map fold_left]; auto. apply IH; [rewrite Hg by (left; auto); ring|]. intros; apply Hg; right; auto. }
  apply zget_ext. intros j. rewrite zget_map, zget_zrange, zget_zrep. replace (p_nm p - 0) with (p_nm p) by lia. destruct ((0 <=? j) && (j <? p_nm p)); cbn [option_map]; auto. f_equal.
  unfold convolved. unfold vsum at 1. apply Z0; auto. intros s _. unfold vsum. apply Z0; auto. intros k Hk. apply In_zrange in Hk. rewrite H by lia. ring.
Qed.
Lemma shifted_response p x y t d : (forall u, u <= t -> x u = y (u - d)) -> response p x t = response p y (t - d).
Proof.
  intros H. unfold response. apply map_ext_in. intros j _. unfold convolved. f_equal. apply map_ext_in. intros s _. f_equal. apply map_ext_in. intros k Hk. apply In_zrange in Hk. rewrite H by lia. do 3 f_equal. lia.
Qed.
(** C110.  Stationary arrays, sources that start at time 0 and are not driven by a processor: if all sources play the same d samples later, a microphone records silence for d
    samples and then the same as before. *)
Theorem C110_delay d : 0 <= d -> start_sources_before_0 i = false -> stationary c -> (forall s, In s (c_src c) -> In s (c_free c)) -> (forall k, In k (c_free c) -> plays_later d k) ->
  forall m b dn dn', In m (c_mic c) -> the_array c m b -> mic_untouched procs m -> records i diags dn m (a_num b) -> records i diags' dn' m (a_num b) ->
  exists x x', recording i st dn x /\ recording i st' dn' x' /\
    (forall t, 0 <= t < tot_samples i -> t < d -> x' t = zeros (a_num b)) /\ (forall t, 0 <= t < tot_samples i -> d <= t -> x' t = x (t - d)).
Proof.
  intros Hd0 H0 HSt Hall HF m b dn dn' Hm Hmb Hu R R'.
  assert (HX' : experiment i (with_sources f c) procs) by exact (@experiment_sources _ _ _ _ _ dsave0 dout0 f i c procs HX).
  assert (HSt' : stationary (with_sources f c)). { intros k a Ha. destruct (sources_array Ha) as (a0 & Ha0 & ->). exact (HSt _ _ Ha0). }
  assert (Hmb' : the_array (with_sources f c) m (give_source b (f m))) by (apply array_sources; auto).
  pose proof (run_longer HX HD HR) as HLen.
  exists (signals_of i c procs m), (signals_of i (with_sources f c) procs m). split; [|split].
  - eapply (recorded_array HX HD HR); eauto.
  - eapply (recorded_array HX' HD' HR'); [|exact Hmb']. exact R'.
  - assert (Src1 : forall s t, In s (c_src c) -> t <= Z.of_nat (run_length i procs) -> exists a, the_array c s a /\ (t < 0 -> signals_of i c procs s t = zeros (a_num a)) /\ (t < d -> signals_of i (with_sources f c) procs s t = zeros (a_num a)) /\ (d <= t -> signals_of i (with_sources f c) procs s t = signals_of i c procs s (t - d))).
    { intros s t Hs Ht. destruct (run_facts HX HD HR) as (r & P & H1 & Hb & Hds & Hr & Es & C1 & C2 & C3 & HN & _ & _ & _ & L & _). destruct (run_facts HX' HD' HR') as (r' & P' & H1' & Hb' & Hds' & Hr' & Es' & _ & _ & _ & HN' & _ & _ & _ & L' & _).
      rewrite Es, Es'. destruct (HF s (Hall s Hs)) as (a & x & y & Ha & Hx & Hy & Q). exists a. split; auto. destruct (l_draw L (Hall s Hs) Ha) as (x1 & _ & X1 & _ & _ & X2). destruct (l_draw L' (Hall s Hs) (array_sources f Ha)) as (y1 & _ & Y1 & _ & _ & Y2).
      cbn [give_source a_source a_num] in *. replace x1 with x in * by congruence. replace y1 with y in * by congruence.
      assert (F1 : first_request (early_start i) = 1) by (unfold early_start; rewrite H0; reflexivity). rewrite F1 in *.
      assert (Before : forall z u, u < 0 -> free_signal (a_num a) z 1 u = zeros (a_num a)) by (intros z u Hu0; unfold free_signal; destruct (Z.ltb_spec u (1 - 1)); [auto|lia]).
      split; [intros; rewrite X2 by lia; auto|]. split.
      - intros Htd. rewrite Y2 by lia. destruct (Z_lt_le_dec t 0); [auto|]. rewrite Q by lia. destruct (Z.ltb_spec t d); [auto|lia].
      - intros Htd. rewrite X2, Y2 by lia. rewrite Q by lia. destruct (Z.ltb_spec t d); [lia|auto]. }
    split; intros t Ht Htd.
    + rewrite (mic_law HX' HD' HR' (m := m) Hm Hmb' HSt') by lia. rewrite (untouched_silent HX' HD' HR' t Hmb' Hu). cbn [give_source a_num]. rewrite mix_zeros. unfold mix, zeros.
      apply zget_ext. intros j. rewrite zget_map, zget_zrange, zget_zrep. replace (a_num b - 0) with (a_num b) by lia. destruct ((0 <=? j) && (j <? a_num b)); cbn [option_map]; auto. f_equal.
      assert (Z0 : forall l z, z = v0 -> (forall e, In e l -> e = v0) -> fold_left vadd l z = v0). { induction l as [|e l IH]; intros z -> He; cbn [fold_left]; auto. apply IH; [rewrite (He e) by (left; auto); ring|]. intros; apply He; right; auto. }
      unfold vsum. apply Z0; auto. intros e He. apply in_map_iff in He as (y & <- & Hy). apply in_map_iff in Hy as (s & <- & Hs). rewrite silent_response; [unfold chan, zeros; rewrite zget_zrep; destruct (_ && _); auto|].
      intros u k Hu0. destruct (Src1 s u Hs) as (a & _ & _ & Q & _); [lia|]. rewrite Q by lia. unfold chan, zeros. rewrite zget_zrep. destruct (_ && _); auto.
    + rewrite (mic_law HX' HD' HR' (m := m) Hm Hmb' HSt') by lia. rewrite (mic_law HX HD HR Hm Hmb HSt) by lia. rewrite (untouched_silent HX' HD' HR' t Hmb' Hu), (untouched_silent HX HD HR (t - d) Hmb Hu). cbn [give_source a_num]. f_equal. apply map_ext_in. intros s Hs.
      apply shifted_response. intros u Hu0. destruct (Src1 s u Hs) as (a & Ha & _ & Q1 & Q2); [lia|]. destruct (Z_lt_le_dec u d); [|auto]. rewrite Q1 by lia.
      destruct (Src1 s (u - d) Hs) as (a' & Ha' & Q0 & _); [lia|]. rewrite Q0 by lia. unfold the_array in *. f_equal. congruence.
Qed.
End Delay.

(* ------------------------------------------------------------------ Examples *)
Section Examples.
Local Open Scope string_scope.
Local Existing Instances fdemo fdemo_d fdemo_s.
Let i1 := run_info 10 5 false true.
Let up (t : Z) : Z := (t + 5)%Z.
Let square (t : Z) : Z := (t * t)%Z.
Let both (t : Z) : Z := (2 * (t + 5) + 3 * (t * t))%Z.
Let to (x : Z -> Z) (k : string) : option Src := if String.eqb k "src" then Some ((0, x) : Src) else None.
(** playing what was picked up is linear *)
Lemma echo_linear bs h p q : linear p q (fecho bs h).
Proof.
  exists (fun _ _ _ => True). split; auto. intros s1 s2 s3 w1 w2 w3 _ H. split; auto. cbn [fecho pr_step snd]. pose proof (H "mic") as M. intros nm.
  destruct (dget w1 "mic") as [x|], (dget w2 "mic") as [y|], (dget w3 "mic") as [z|]; cbn [blocks_mix] in M; try contradiction; [|exact I]. destruct M as (L1 & L2 & M).
  cbn [dget]. destruct (String.eqb nm "spk"); [|exact I]. cbn [blocks_mix]. rewrite !zlen_pyslice, L1, L2. split; [reflexivity|]. split; [reflexivity|].
  intros k u v w. rewrite !zget_pyslice. cbv zeta. rewrite L1, L2. destruct (_ && _)%bool; [|discriminate]. apply M.
Qed.
Lemma one_mix (a b e : Z) : e = (2 * a + 3 * b)%Z -> mixes (2 : V) (3 : V) [a] [b] [e].
Proof. intros H. apply (@mixes_const fdemo ltac:(constructor; intros; cbn; ring) 2%Z 3%Z 1 a b e). exact H. Qed.
(** a moving microphone, a source that plays x, y or 2 x + 3 y, and a loudspeaker that plays what the microphone has picked up *)
Example C109_example : semi_ring_theory 0%Z 1%Z Z.add Z.mul eq /\ Forall (linear 2%Z 3%Z) [fecho 3 5] /\
  exists c d st d' st' d2 st2,
  experiment i1 c [fecho 3 5] /\ good_diags i1 d /\ run_simulation i1 c [fecho 3 5] d = Ok st /\
  good_diags i1 d' /\ run_simulation i1 (with_sources (to square) c) [fecho 3 5] d' = Ok st' /\ good_diags i1 d2 /\ run_simulation i1 (with_sources (to both) c) [fecho 3 5] d2 = Ok st2 /\
  (forall k, In k (c_free c) -> plays_mix 2%Z 3%Z i1 (to square) (to both) c k) /\ steady c /\
  forall nm, In nm ["mic"; "src"; "spk"] -> dget (dims_of i1 c [fecho 3 5]) nm = Some 1 /\ records i1 d nm nm 1 /\ records i1 d' nm nm 1 /\ records i1 d2 nm nm 1.
Proof.
  split; [constructor; intros; ring|]. split; [constructor; [apply echo_linear|constructor]|].
  assert (N : NoDup ["mic"; "src"; "spk"]) by (repeat constructor; simpl; intuition discriminate).
  destruct (frun_meets i1 (froom (Some (fun t => t)) up) [(3, 5)] ["mic"; "src"; "spk"]) as (c & d & st & Hc & Hd & A & B & C); [vm_compute; reflexivity|apply froom_sized|cbn; lia|exact N|vm_compute; reflexivity|].
  destruct (frun_meets i1 (froom (Some (fun t => t)) square) [(3, 5)] ["mic"; "src"; "spk"]) as (c' & d' & st' & Hc' & Hd' & A' & B' & C'); [vm_compute; reflexivity|apply froom_sized|cbn; lia|exact N|vm_compute; reflexivity|].
  destruct (frun_meets i1 (froom (Some (fun t => t)) both) [(3, 5)] ["mic"; "src"; "spk"]) as (c2 & d2 & st2 & Hc2 & Hd2 & A2 & B2 & C2); [vm_compute; reflexivity|apply froom_sized|cbn; lia|exact N|vm_compute; reflexivity|].
  assert (Ec : c' = with_sources (to square) c).
  { assert (K : get (fcoll i1 (froom (Some (fun t => t)) up)) (with_sources (to square)) = get (fcoll i1 (froom (Some (fun t => t)) square)) (fun c => c)) by (vm_compute; reflexivity).
    rewrite Hc, Hc' in K. cbn [get] in K. exact (f_equal (fun o => match o with Some x => x | None => c' end) (eq_sym K)). }
  assert (Ec2 : c2 = with_sources (to both) c).
  { assert (K : get (fcoll i1 (froom (Some (fun t => t)) up)) (with_sources (to both)) = get (fcoll i1 (froom (Some (fun t => t)) both)) (fun c => c)) by (vm_compute; reflexivity).
    rewrite Hc, Hc2 in K. cbn [get] in K. exact (f_equal (fun o => match o with Some x => x | None => c2 end) (eq_sym K)). }
  subst c' c2.
  pose proof (fcoll_is _ _ _ _ (fun c => (c_arrays c, c_free c)) _ Hc (ltac:(vm_compute; reflexivity))) as Q. cbv beta in Q. injection Q as Q1 Q2.
  pose proof (fcoll_is _ _ _ _ (fun c => c_info c) _ Hc (ltac:(vm_compute; reflexivity))) as Q3. cbv beta in Q3.
  pose proof (fcoll_is _ _ _ _ (fun c => c_ptypes c) _ Hc (ltac:(vm_compute; reflexivity))) as Q4. cbv beta in Q4.
  pose proof (fcoll_is _ _ _ _ (fun c => dims_of i1 c [fecho 3 5]) _ Hc (ltac:(vm_compute; reflexivity))) as Q5. cbv beta in Q5.
  destruct (frecorders_get _ _ _ Hd) as [_ K]. destruct (frecorders_get _ _ _ Hd') as [_ K']. destruct (frecorders_get _ _ _ Hd2) as [_ K2].
  exists c, d, st, d', st', d2, st2. split; [exact A|]. split; [exact B|]. split; [exact C|]. split; [exact B'|]. split; [exact C'|]. split; [exact B2|]. split; [exact C2|].
  split; [|split].
  - intros k Hk. rewrite Q2 in Hk. destruct Hk as [<-|[]]. eexists _, (0, up), (0, square), (0, both). split; [unfold the_array; rewrite Q1; reflexivity|]. split; [reflexivity|]. split; [reflexivity|]. split; [reflexivity|].
    cbv zeta. change (first_request (early_start i1)) with 1%Z. intros t. cbn [a_num]. rewrite !fplays. destruct (t <? 0)%Z; apply one_mix; unfold up, square, both; ring.
  - right. eexists. split; [exact Q3|]. intros s m ty _ _ Hl. rewrite Q4 in Hl. apply repeatable_types.
    + intros ->. unfold lookup2 in Hl. cbn [dget] in Hl. repeat (destruct (String.eqb _ _); cbn [dget] in Hl); try discriminate Hl.
    + reflexivity.
    + intros par g g' x y h p h' p' _ X1 X2. cbn in X1, X2. injection X1 as _ <-. injection X2 as _ <-. reflexivity.
    + intros p q sr fr HS. exact HS.
  - intros nm Hn. split; [rewrite Q5; repeat (destruct Hn as [<-|Hn]; [reflexivity|]); destruct Hn|]. split; [apply K; exact Hn|]. split; [apply K'; exact Hn|apply K2; exact Hn].
Qed.
(** what is recorded in the three runs *)
Example C109_values : let mic x := frecs (frun i1 (froom (Some (fun t => t)) x) [(3, 5)] ["mic"; "src"; "spk"]) ["mic"] in
  let frames l := [Some (map (fun x => Some [x]) l)] in exists a b, mic up = frames a /\ mic square = frames b /\ mic both = frames (map (fun xy => (2 * fst xy + 3 * snd xy)%Z) (combine a b)) /\ existsb (fun x => negb (x =? 0)%Z) b = true.
Proof. exists [0; 0; 5; 6; 7; 8; 9; 10; 16; 0; 0; 0]%Z, [0; 0; 0; 1; 4; 9; 16; 25; 36; 0; 0; 0]%Z. cbv zeta. split; [vm_compute; reflexivity|]. split; [vm_compute; reflexivity|]. split; vm_compute; reflexivity. Qed.
(** the same generator, two samples later *)
Let later (t : Z) : Z := if (t <? 2)%Z then 0%Z else up (t - 2).
Let pair (x : Z -> Z) : list (arr Pos Src) := [fone "mic" KMic 0 None None; fone "src" KFree 2 None (Some x)].
Let none : list (@proc fdemo fdemo_s) := [].
Example C110_example : exists (c : coll fdemo) (d : dict (diag (@D fdemo fdemo_s))) st (d' : dict (diag (@D fdemo fdemo_s))) st',
  experiment i1 c none /\ good_diags i1 d /\ run_simulation i1 c none d = Ok st /\ good_diags i1 d' /\ run_simulation i1 (with_sources (to later) c) none d' = Ok st' /\
  start_sources_before_0 i1 = false /\ stationary c /\ (forall s, In s (c_src c) -> In s (c_free c)) /\ (forall k, In k (c_free c) -> plays_later (to later) c 2 k) /\
  In "mic" (c_mic c) /\ (exists b, the_array c "mic" b /\ a_num b = 1%Z) /\ mic_untouched none "mic" /\ records i1 d "mic" "mic" 1 /\ records i1 d' "mic" "mic" 1.
Proof.
  assert (N : NoDup ["mic"; "src"]) by (repeat constructor; simpl; intuition discriminate).
  assert (Sz : forall x, Forall (sized (fun _ => 1%Z)) (pair x)) by (intros; repeat constructor; simpl; intros; auto; discriminate).
  destruct (frun_meets i1 (pair up) [] ["mic"; "src"]) as (c & d & st & Hc & Hd & A & B & C); [vm_compute; reflexivity|apply Sz|cbn; lia|exact N|vm_compute; reflexivity|].
  destruct (frun_meets i1 (pair later) [] ["mic"; "src"]) as (c' & d' & st' & Hc' & Hd' & A' & B' & C'); [vm_compute; reflexivity|apply Sz|cbn; lia|exact N|vm_compute; reflexivity|].
  assert (Ec : c' = with_sources (to later) c).
  { assert (K : get (fcoll i1 (pair up)) (with_sources (to later)) = get (fcoll i1 (pair later)) (fun c => c)) by (vm_compute; reflexivity).
    rewrite Hc, Hc' in K. cbn [get] in K. exact (f_equal (fun o => match o with Some x => x | None => c' end) (eq_sym K)). }
  subst c'.
  pose proof (fcoll_is _ _ _ _ (fun c => (c_arrays c, c_free c, c_src c, c_mic c)) _ Hc (ltac:(vm_compute; reflexivity))) as Q. cbv beta in Q. injection Q as Q1 Q2 Q3 Q4.
  destruct (frecorders_get _ _ _ Hd) as [_ K]. destruct (frecorders_get _ _ _ Hd') as [_ K'].
  exists c, d, st, d', st'. split; [exact A|]. split; [exact B|]. split; [exact C|]. split; [exact B'|]. split; [exact C'|]. split; [reflexivity|].
  split; [|split; [|split; [|split; [|split; [|split; [|split]]]]]].
  - intros k a Ha. unfold the_array in Ha. rewrite Q1 in Ha. cbn [dget] in Ha. repeat (destruct (String.eqb _ _); [injection Ha as <-; reflexivity|]). discriminate Ha.
  - rewrite Q2, Q3. intros s Hs. exact Hs.
  - intros k Hk. rewrite Q2 in Hk. destruct Hk as [<-|[]]. eexists _, (0, up), (0, later). split; [unfold the_array; rewrite Q1; reflexivity|]. split; [reflexivity|]. split; [reflexivity|].
    cbv zeta. intros t Ht. cbn [a_num]. rewrite !fplays. unfold later. destruct (Z.ltb_spec t 0); [lia|]. destruct (Z.ltb_spec t 2); [reflexivity|]. destruct (Z.ltb_spec (t - 2) 0); [lia|reflexivity].
  - rewrite Q4. left; reflexivity.
  - eexists. split; [unfold the_array; rewrite Q1; reflexivity|reflexivity].
  - constructor.
  - apply K. left; reflexivity.
  - apply K'. left; reflexivity.
Qed.
Example C110_values : let mic x := frecs (frun i1 (pair x) [] ["mic"; "src"]) ["mic"] in let frames l := [Some (map (fun x => Some [x]) l)] in
  mic up = frames [0; 0; 5; 6; 7; 8; 9; 10; 11; 12; 13; 14]%Z /\ mic later = frames [0; 0; 0; 0; 5; 6; 7; 8; 9; 10; 11; 12]%Z.
Proof. split; vm_compute; reflexivity. Qed.
End Examples.
Print Assumptions C109_signals.
Print Assumptions C109_recorded.
Print Assumptions C110_delay.
