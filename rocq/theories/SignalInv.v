(** The reference run in closed form: invariant of the time steps. *)
Require Import Verif.PyBase Verif.PyLemmas Verif.ConfigModel Verif.ArrayModel Verif.ArraySpec Verif.ArrayProofs Verif.ArrayPaths
  Verif.LoggerModel Verif.SimModel Verif.SimSpec Verif.SimRefine Verif.SimRun Verif.SimDiag Verif.SignalSpec Verif.SignalPass Verif.SignalRun
  Verif.SignalLaw.
Set Implicit Arguments.
Arguments Z.add : simpl never.
Arguments Z.sub : simpl never.
Arguments Z.mul : simpl never.
Ltac Zify.zify_post_hook ::= Z.div_mod_to_equations.

Section Ext.
Context {E : AEnv} {S : SEnv}.
Notation arr := (arr Pos Src).

Lemma convolved_ext (p : path V) x y t j : (forall u, u <= t -> x u = y u) -> convolved p x t j = convolved p y t j.
Proof.
  intros H. unfold convolved. f_equal. apply map_ext. intros s. f_equal. apply map_ext_in. intros k Hk.
  apply In_zrange in Hk. rewrite (H (t - k)) by lia. auto.
Qed.
Lemma response_ext (p : path V) x y t : (forall u, u <= t -> x u = y u) -> response p x t = response p y t.
Proof. intros H. unfold response. apply map_ext. intros j. apply convolved_ext; auto. Qed.
Lemma window_ext ds (tl tl' : timeline) a b : (forall nm u, u < b -> tl nm u = tl' nm u) -> window ds tl a b = window ds tl' a b.
Proof.
  intros H. unfold window. apply map_ext. intros [k d]. f_equal. apply map_ext_in. intros u Hu. apply In_zrange in Hu. apply H. lia.
Qed.
Lemma state_after_ext ds (tl tl' : timeline) p k : 1 <= pr_bs p -> (forall nm u, u < Z.of_nat k * pr_bs p -> tl nm u = tl' nm u) ->
  state_after ds tl p k = state_after ds tl' p k.
Proof.
  intros Hb. induction k as [|k IH]; intros H; cbn [state_after]; auto. rewrite IH.
  - rewrite (window_ext ds tl tl'); auto.
  - intros nm u Hu. apply H. nia.
Qed.
Lemma output_of_ext ds (tl tl' : timeline) p k : 1 <= pr_bs p -> (forall nm u, u < Z.of_nat k * pr_bs p -> tl nm u = tl' nm u) ->
  output_of ds tl p k = output_of ds tl' p k.
Proof.
  intros Hb H. unfold output_of. rewrite (@state_after_ext ds tl tl' p (k - 1)) by (auto; intros; apply H; nia).
  rewrite (window_ext ds tl tl'); auto.
Qed.
Definition blocks_ok (procs : list (@proc E S)) : Prop := Forall (fun p => 1 <= pr_bs p) procs.
Lemma written_ext ds (tl tl' : timeline) procs T nm u : blocks_ok procs -> (forall nm u, u < T -> tl nm u = tl' nm u) ->
  written ds tl procs T nm u = written ds tl' procs T nm u.
Proof.
  intros Hb H. destruct procs as [|p [|q procs]]; cbn [written]; auto. inversion Hb; subst.
  destruct (Z.leb_spec 1 (u / pr_bs p)); simpl; auto. destruct (Z.leb_spec (u / pr_bs p * pr_bs p) T); auto.
  rewrite (@output_of_ext ds tl tl'); auto. intros nm' v Hv. apply H. rewrite Z2Nat.id in Hv by lia. lia.
Qed.
(** one more time index *)
Lemma written_step ds (tl : timeline) p T nm u : 1 <= pr_bs p -> 0 <= T ->
  written ds tl [p] (T + 1) nm u =
  if ((T + 1) mod pr_bs p =? 0) && ((T + 1 <=? u) && (u <? T + 1 + pr_bs p)) then
    match dget (output_of ds tl p (Z.to_nat ((T + 1) / pr_bs p))) nm with
    | Some xs => shown (match dget ds nm with Some d => d | None => 0 end) xs (u - (T + 1))
    | None => written ds tl [p] T nm u
    end
  else written ds tl [p] T nm u.
Proof.
  intros Hb HT. cbn [written]. set (bs := pr_bs p) in *.
  assert (D : (T + 1) / bs * bs + (T + 1) mod bs = T + 1) by (pose proof (Z.div_mod (T + 1) bs); lia).
  assert (M : 0 <= (T + 1) mod bs < bs) by (apply Z.mod_pos_bound; lia).
  assert (Du : u / bs * bs + u mod bs = u) by (pose proof (Z.div_mod u bs); lia).
  assert (Mu : 0 <= u mod bs < bs) by (apply Z.mod_pos_bound; lia).
  destruct (Z.eqb_spec ((T + 1) mod bs) 0) as [Hm|Hm]; simpl.
  - destruct (Z.leb_spec (T + 1) u), (Z.ltb_spec u (T + 1 + bs)); simpl.
    + assert (Eq : u / bs = (T + 1) / bs) by nia.
      assert (Eq2 : u / bs * bs = T + 1) by nia. rewrite Eq2, <- Eq.
      assert (1 <= u / bs) by nia. destruct (Z.leb_spec 1 (u / bs)); [|lia]. destruct (Z.leb_spec (T + 1) (T + 1)); [|lia]. simpl.
      destruct (dget (output_of ds tl p (Z.to_nat (u / bs))) nm); auto.
      destruct (Z.leb_spec (T + 1) T); auto; lia.
    + destruct (Z.leb_spec (u / bs * bs) (T + 1)), (Z.leb_spec (u / bs * bs) T); auto; exfalso; nia.
    + destruct (Z.leb_spec (u / bs * bs) (T + 1)), (Z.leb_spec (u / bs * bs) T); auto; exfalso; nia.
    + lia.
  - destruct (Z.leb_spec (u / bs * bs) (T + 1)), (Z.leb_spec (u / bs * bs) T); auto; exfalso.
    + assert (u / bs * bs = T + 1) by lia. apply Hm. rewrite <- H1. apply Z.mod_mul. lia.
    + lia.
Qed.
Lemma written_later ds (tl : timeline) procs T T' nm u : blocks_ok procs -> u <= T -> u <= T' -> written ds tl procs T nm u = written ds tl procs T' nm u.
Proof.
  intros Hb H1 H2. destruct procs as [|p [|q procs]]; cbn [written]; auto. inversion Hb; subst.
  assert (u / pr_bs p * pr_bs p <= u) by (pose proof (Z.mul_div_le u (pr_bs p)); lia).
  destruct (Z.leb_spec (u / pr_bs p * pr_bs p) T), (Z.leb_spec (u / pr_bs p * pr_bs p) T'); auto; lia.
Qed.

Lemma mix_on_fold base n l : zlen base = Z.max 0 n -> Forall (fun y => zlen y = Z.max 0 n) l -> fold_left fadd_tot l base = mix_on base n l.
Proof.
  intros H HF. rewrite (@fold_fadd _ (Z.max 0 n) l base H HF). unfold mix_on.
  destruct (Z.leb_spec 0 n); [rewrite Z.max_r by lia; auto|]. rewrite Z.max_l by lia. rewrite !zrange_empty by lia. auto.
Qed.
End Ext.

Section Inv.
Context {E : AEnv} {S : SEnv}.
Notation arr := (arr Pos Src).
Variables (ct : bool) (ds : dims) (c0 : coll E) (procs : list (@proc E S)) (n0 : Z).
Hypothesis HO : coll_ok c0.
Hypothesis HN : names_ok ct ds c0.
Hypothesis HS : shaped c0.
Hypothesis Hb : blocks_ok procs.
Hypothesis Hdict : Forall (fun p => forall s w, NoDup (dkeys (snd (pr_step p s w)))) procs.
Hypothesis Hone : zlen procs <= 1.
Hypothesis Hnum : forall k a, the_array c0 k a -> 0 <= a_num a.
Hypothesis Hn0 : 1 <= n0.

Record same_array (a0 a : arr) : Prop := {
  sa_num : a_num a = a_num a0; sa_kind : a_kind a = a_kind a0; sa_traj : a_traj a = a_traj a0; sa_dirs : a_dirs a = a_dirs a0 }.
Definition static_pair (s m : string) : Prop :=
  forall a b, the_array c0 s a -> the_array c0 m b -> a_traj a = None /\ a_traj b = None.

Record Law (P : Z -> string -> string -> path V) (T : Z) (r : ref) : Prop := {
  l_ok : coll_ok (r_coll r);
  l_src : c_src (r_coll r) = c_src c0;
  l_mic : c_mic (r_coll r) = c_mic c0;
  l_free : c_free (r_coll r) = c_free c0;
  l_arr : forall k a0, the_array c0 k a0 -> exists a, the_array (r_coll r) k a /\ same_array a0 a;
  l_arr2 : forall k a, the_array (r_coll r) k a -> exists a0, the_array c0 k a0;
  l_path : forall s m, In s (c_src c0) -> In m (c_mic c0) -> exists p0,
    lookup2 (c_paths c0) s m = Some p0 /\ lookup2 (c_paths (r_coll r)) s m = Some (P T s m) /\
    same_shape p0 (P T s m) = true /\ (static_pair s m -> P T s m = p0) /\
    lookup2 (r_flt r) s m = Some (mkFir (P T s m) (map (r_tl r s) (zrange (T + 1 - hist_len (P T s m)) (T + 1))));
  l_draw : forall k a0, In k (c_free c0) -> the_array c0 k a0 -> exists src a,
    a_source a0 = Some src /\ the_array (r_coll r) k a /\ a_source a = Some (fst (nth_draw src n0 (Z.to_nat T))) /\
    forall t, t <= T -> r_tl r k t = free_signal (a_num a0) src n0 t;
  l_procs : r_procs r = map (fun p => mkProc (pr_bs p) (pr_hist p) (pr_locals p) (pr_step p)
                                       (state_after ds (r_tl r) p (Z.to_nat (T / pr_bs p)))) procs;
  l_rest : forall nm u, ~ In nm (c_free c0) -> (ct = false \/ forall s m, In s (c_src c0) -> In m (c_mic c0) -> nm <> contrib s m) ->
    ~ In nm (c_mic c0) \/ T < u -> r_tl r nm u = written ds (r_tl r) procs T nm u;
  l_out : forall m b t, In m (c_mic c0) -> the_array c0 m b -> 1 <= t <= T ->
    r_tl r m t = mix_on (written ds (r_tl r) procs T m t) (a_num b) (map (fun s => response (P t s m) (r_tl r s) t) (c_src c0));
  l_con : ct = true -> forall s m t, In s (c_src c0) -> In m (c_mic c0) -> 1 <= t <= T ->
    r_tl r (contrib s m) t = response (P t s m) (r_tl r s) t;
  l_wide : wide ds (r_tl r)
}.

Lemma procs_cases : procs = [] \/ exists p, procs = [p].
Proof.
  destruct procs as [|p [|q l]]; auto; [right; eauto|]. rewrite !zlen_cons in Hone. pose proof (zlen_nonneg l). lia.
Qed.

Lemma ref_step_parts g r r' : ref_step ct ds g r = Ok r' -> exists c1 tl1 tl2 fs1 cs,
  update (r_coll r) g = Ok c1 /\ foldM (ref_procs ds (g + 1)) ([], r_tl r) (r_procs r) = Ok (r_procs r', tl1) /\
  foldM (ref_free ds (g + 1) 1) (c1, tl1) (c_free c1) = Ok (r_coll r', tl2) /\
  mic_src_combos (r_coll r') = Ok cs /\ foldM (refresh_pair (r_coll r')) (r_flt r) cs = Ok fs1 /\
  pass_rel ct ds (g + 1) (g + 1 + 1) (pick1 (g + 1)) (pair_names cs) (fs1, tl2) (r_flt r', r_tl r').
Proof.
  intros H. unfold ref_step in H. apply bind_ok in H as (c1 & H1 & H). apply bind_ok in H as ([ps tl1] & H2 & H).
  apply bind_ok in H as ([c2 tl2] & H3 & H). apply bind_ok in H as (cs & H4 & H). apply bind_ok in H as (fs1 & H5 & H).
  apply bind_ok in H as ([fs2 tl3] & H6 & H). inversion H; subst; clear H. cbn [r_coll r_procs r_flt r_tl fst snd].
  exists c1, tl1, tl2, fs1, cs. repeat (split; [assumption|]).
  eapply pass_fold; [|exact H6]. intros acc sm acc' Q. apply ref_pair_rel; auto.
Qed.

Lemma procs_step T r : 0 <= T -> forall P, Law P T r -> forall ps tl1,
  foldM (ref_procs ds (T + 1)) ([], r_tl r) (r_procs r) = Ok (ps, tl1) ->
  wide ds tl1 /\ (forall nm u, u <= T -> tl1 nm u = r_tl r nm u) /\
  ps = map (fun p => mkProc (pr_bs p) (pr_hist p) (pr_locals p) (pr_step p)
                       (state_after ds (r_tl r) p (Z.to_nat ((T + 1) / pr_bs p)))) procs /\
  (forall nm u, r_tl r nm u = written ds (r_tl r) procs T nm u -> tl1 nm u = written ds (r_tl r) procs (T + 1) nm u).
Proof.
  intros HT P L ps tl1 H. rewrite (l_procs L) in H. destruct procs_cases as [Ep|[p Ep]]; rewrite Ep in *; cbn [map foldM] in H.
  - inversion H; subst. split; [apply L|]. auto.
  - inversion Hb as [|? ? Hbs _]; subst x l. inversion Hdict as [|? ? Hd _]; subst x l.
    apply bind_ok in H as ([ps1 tl2] & H & H'). inversion H'; subst ps1 tl2; clear H'.
    unfold ref_procs in H. cbn [pr_bs] in H. destruct (Z.eqb_spec (pr_bs p) 0); [lia|].
    assert (D : (T + 1) / pr_bs p * pr_bs p + (T + 1) mod pr_bs p = T + 1) by (pose proof (Z.div_mod (T + 1) (pr_bs p)); lia).
    assert (M : 0 <= (T + 1) mod pr_bs p < pr_bs p) by (apply Z.mod_pos_bound; lia).
    assert (D2 : T / pr_bs p * pr_bs p + T mod pr_bs p = T) by (pose proof (Z.div_mod T (pr_bs p)); lia).
    assert (M2 : 0 <= T mod pr_bs p < pr_bs p) by (apply Z.mod_pos_bound; lia).
    destruct (Z.eqb_spec ((T + 1) mod pr_bs p) 0) as [Hm|Hm].
    + apply bind_ok in H as ([p' tl2] & H & H'). inversion H'; subst ps tl2; clear H'. cbn [fst snd app].
      unfold ref_process in H. cbn [pr_bs pr_hist pr_step pr_state pr_locals] in H.
      assert (Ek : Z.to_nat ((T + 1) / pr_bs p) = Datatypes.S (Z.to_nat (T / pr_bs p))).
      { assert ((T + 1) / pr_bs p = T / pr_bs p + 1) as -> by nia. assert (0 <= T / pr_bs p) by nia. lia. }
      assert (Et : Z.of_nat (Datatypes.S (Z.to_nat (T / pr_bs p))) * pr_bs p = T + 1).
      { rewrite <- Ek. rewrite Z2Nat.id by nia. lia. }
      destruct (pr_step p (state_after ds (r_tl r) p (Z.to_nat (T / pr_bs p))) (window ds (r_tl r) (T + 1 - pr_hist p) (T + 1))) as [ps' outs] eqn:Q.
      apply bind_ok in H as (tl2 & Hw & H). inversion H; subst tl2 p'; clear H.
      assert (Eo : output_of ds (r_tl r) p (Z.to_nat ((T + 1) / pr_bs p)) = outs).
      { rewrite Ek. unfold output_of. replace (Datatypes.S (Z.to_nat (T / pr_bs p)) - 1)%nat with (Z.to_nat (T / pr_bs p)) by lia.
        rewrite Et, Q. auto. }
      assert (Hno : NoDup (dkeys outs)). { specialize (Hd (state_after ds (r_tl r) p (Z.to_nat (T / pr_bs p))) (window ds (r_tl r) (T + 1 - pr_hist p) (T + 1))). rewrite Q in Hd. auto. }
      assert (W : forall nm u, tl1 nm u = if (T + 1 <=? u) && (u <? T + 1 + pr_bs p) then
                    match dget outs nm with Some xs => shown (match dget ds nm with Some d => d | None => 0 end) xs (u - (T + 1)) | None => r_tl r nm u end
                    else r_tl r nm u).
      { intros nm u. eapply fold_write_shown; eauto. lia. }
      split; [|split; [|split]].
      * eapply foldM_bind_inv with (P := wide ds); [apply L| |exact Hw]. intros a x a' Ha Hx. exact (@tl_write_wide _ _ _ _ _ _ _ _ Ha Hx).
      * intros nm u Hu. rewrite W. destruct (Z.leb_spec (T + 1) u); auto. lia.
      * cbn [map]. rewrite Ek. cbn [state_after]. rewrite Et, Q. auto.
      * intros nm u Hnm. rewrite W, written_step by auto. rewrite Hm. simpl. rewrite Eo.
        destruct ((T + 1 <=? u) && (u <? T + 1 + pr_bs p)); auto. destruct (dget outs nm); auto.
    + inversion H; subst; clear H. split; [apply L|]. split; [auto|]. split.
      * cbn [map app]. do 3 f_equal. assert ((T + 1) / pr_bs p = T / pr_bs p) as -> by nia. auto.
      * intros nm u Hnm. rewrite written_step by auto. destruct (Z.eqb_spec ((T + 1) mod pr_bs p) 0); [lia|]. auto.
Qed.

Lemma combos_dyn c cs s m : coll_ok c -> mic_src_combos c = Ok cs -> In s (c_src c) -> In m (c_mic c) ->
  exists a b, In (a, b) cs /\ a_name a = s /\ a_name b = m /\ the_array c s a /\ the_array c m b.
Proof.
  intros O Hcs Hs Hm. destruct (combos_names O Hcs) as [P1 P2].
  assert (In (s, m) (list_prod (c_src c) (c_mic c))) as Hin by (apply in_prod; auto).
  rewrite <- P1 in Hin. apply in_map_iff in Hin as ((a, b) & Eab & Hin). simpl in Eab. inversion Eab; subst. exists a, b.
  pose proof (proj1 (P2 a b) Hin). tauto.
Qed.
Lemma src_array k : In k (c_src c0) -> exists a, the_array c0 k a /\ is_source a = true.
Proof. apply src_names; auto. Qed.
Lemma mic_array k : In k (c_mic c0) -> exists a, the_array c0 k a /\ is_mic a = true.
Proof. apply mic_names; auto. Qed.
Lemma src_not_con s m k : ct = true -> In s (c_src c0) -> In m (c_mic c0) -> In k (c_src c0) \/ In k (c_mic c0) -> k <> contrib s m.
Proof.
  intros Hc Hs Hm [Hk|Hk].
  - apply src_array in Hk as (a & Ha & _). eapply (no_arr HN); eauto.
  - apply mic_array in Hk as (a & Ha & _). eapply (no_arr HN); eauto.
Qed.

Lemma fold_add_none pick (out : string * string -> list frame) nm u (l : list (string * string)) : pick u = None -> forall v,
  fold_left (fun v p => if String.eqb nm (snd p) then add_at pick (out p) u v else v) l v = v.
Proof.
  intros Hp. induction l as [|q l IH]; simpl; intros v; auto. unfold add_at at 2. rewrite Hp. destruct (_ =? _)%string; apply IH.
Qed.
Lemma fold_left_ext_in {A B} (f g : A -> B -> A) l : (forall a x, In x l -> f a x = g a x) -> forall a, fold_left f l a = fold_left g l a.
Proof.
  induction l as [|x l IH]; simpl; intros H a; auto. rewrite H by auto. apply IH. auto.
Qed.
Lemma fold_left_map {A B C} (f : A -> C -> A) (h : B -> C) l : forall a, fold_left (fun a x => f a (h x)) l a = fold_left f (map h l) a.
Proof. induction l; simpl; auto. Qed.
Lemma ref_free_wide t n acc nm acc' : wide ds (snd acc) -> ref_free ds t n acc nm = Ok acc' -> wide ds (snd acc').
Proof.
  destruct acc as [c tl]. unfold ref_free. intros W H. apply bind_ok in H as (a & _ & H). destruct (a_source a); [|discriminate].
  destruct (src_get s n). apply bind_ok in H as (tl' & Hw & H). inversion H; subst. simpl. exact (@tl_write_wide _ _ _ _ _ _ _ _ W Hw).
Qed.
Lemma ref_pair_wide t acc sm acc' : wide ds (snd acc) -> ref_pair ct ds t acc sm = Ok acc' -> wide ds (snd acc').
Proof.
  destruct acc as [fs tl]. unfold ref_pair. intros W H. apply bind_ok in H as (f & _ & H). apply bind_ok in H as (d & _ & H).
  destruct (fir_step _ _) as [f' y]. apply bind_ok in H as (fs' & _ & H). apply bind_ok in H as (tl1 & H1 & H). apply bind_ok in H as (tl2 & H2 & H).
  inversion H; subst. simpl. pose proof (@tl_add_wide _ _ _ _ _ _ _ W H1) as W1. destruct ct; [|inversion H2; subst; auto].
  exact (@tl_write_wide _ _ _ _ _ _ _ _ W1 H2).
Qed.
Lemma ref_step_wide g r r' : ref_step ct ds g r = Ok r' -> (forall ps tl1, foldM (ref_procs ds (g + 1)) ([], r_tl r) (r_procs r) = Ok (ps, tl1) -> wide ds tl1) -> wide ds (r_tl r').
Proof.
  intros H HW. unfold ref_step in H. apply bind_ok in H as (c1 & H1 & H). apply bind_ok in H as ([ps tl1] & H2 & H).
  apply bind_ok in H as ([c2 tl2] & H3 & H). apply bind_ok in H as (cs & H4 & H). apply bind_ok in H as (fs1 & H5 & H).
  apply bind_ok in H as ([fs2 tl3] & H6 & H). inversion H; subst; clear H. cbn [r_tl snd].
  apply HW in H2.
  assert (W2 : wide ds (snd (c2, tl2))).
  { eapply foldM_bind_inv with (P := fun acc => wide ds (snd acc)); [|intros; eapply ref_free_wide; eauto|exact H3]. exact H2. }
  change tl3 with (snd (fs2, tl3)).
  eapply foldM_bind_inv with (P := fun acc => wide ds (snd acc)); [|intros; eapply ref_pair_wide; eauto|exact H6]. exact W2.
Qed.
Lemma law_step P T r r' : 0 <= T -> (forall s m, P (T + 1) s m = path_of (r_coll r') s m) ->
  Law P T r -> ref_step ct ds T r = Ok r' -> Law P (T + 1) r'.
Proof.
  intros HT HP L H. destruct (ref_step_parts _ _ H) as (c1 & tl1 & tl2 & fs1 & cs & H1 & H2 & H3 & H4 & H5 & H6).
  destruct (@procs_step T r HT P L _ _ H2) as (W1 & Past1 & Hps & Hwr).
  destruct (@update_static _ _ _ _ (l_ok L) H1) as (U1 & U2 & U3 & U4 & U5 & U6 & U7 & U8).
  assert (Hn1 : 0 <= 1) by lia.
  destruct (@free_fold _ ds (T + 1) 1 Hn1 _ _ _ _ _ (@NoDup_free _ _ U1) U1 H3) as (F1 & F2 & F3 & F4).
  assert (Emic : c_mic (r_coll r') = c_mic c0). { rewrite F2. cbn [c_mic set_arrays]. rewrite U2. apply L. }
  assert (Esrc : c_src (r_coll r') = c_src c0). { rewrite F2. cbn [c_src set_arrays]. rewrite U3. apply L. }
  assert (Efree1 : c_free c1 = c_free c0). { rewrite U4. apply L. }
  assert (Efree : c_free (r_coll r') = c_free c0). { rewrite F2. cbn [c_free set_arrays]. auto. }
  assert (Epaths : c_paths (r_coll r') = c_paths c1). { rewrite F2. auto. }
  rewrite Efree1 in F3, F4.
  (* arrays *)
  assert (Harr : forall k a0, the_array c0 k a0 -> exists a, the_array (r_coll r') k a /\ same_array a0 a).
  { intros k a0 Hk. destruct (l_arr L Hk) as (a & Ha & [S1 S2 S3 S4]). destruct (U7 _ _ Ha) as (a1 & Ha1 & Hor).
    assert (same_array a0 a1) as [S1' S2' S3' S4'].
    { destruct Hor; subst; split; rewrite ?arr_update_num, ?arr_update_kind, ?arr_update_traj, ?arr_update_dirs; auto. }
    destruct (in_dec string_dec k (c_free c0)) as [Hf|Hf].
    - destruct (F3 k Hf) as (a2 & src & d & G1 & G2 & G3 & G4 & G5). assert (a2 = a1) by (unfold the_array in *; congruence). subst a2.
      eexists. split; [exact G4|]. split; auto.
    - destruct (F4 k Hf) as [G _]. exists a1. split; [unfold the_array in *; congruence|]. split; auto. }
  assert (Harr2 : forall k a, the_array (r_coll r') k a -> exists a0, the_array c0 k a0).
  { intros k a Hk. destruct (in_dec string_dec k (c_free c0)) as [Hf|Hf].
    - apply (@free_is_src _ c0 k HO) in Hf. apply src_array in Hf as (a0 & Ha0 & _). eauto.
    - destruct (F4 k Hf) as [G _]. unfold the_array in Hk. rewrite G in Hk.
      destruct (@the_array_update _ _ _ _ k a (l_ok L) H1 Hk) as (a1 & Ha1 & _). eapply (l_arr2 L); eauto. }
  (* pass over the pairs *)
  destruct (combos_names F1 H4) as [C1 C2]. fold (pair_names cs) in C1. rewrite Esrc, Emic in C1.
  rewrite C1 in H6. destruct (@pass_spec _ _ _ _ _ _ _ _ _ (no_sep HN) H6) as (Q1 & Q2 & Q3 & Q4). cbn [fst snd] in *.
  assert (ND : NoDup (pair_names cs)). { rewrite C1. apply (no_sep HN). }
  destruct (@refresh_fold _ _ _ _ _ ND H5) as [R1 _].
  assert (Hdyn : forall s m a b, In (a, b) cs -> a_name a = s -> a_name b = m -> static_pair s m <-> dynamic a || dynamic b = false).
  { intros s m a b Hin Ea Eb. apply C2 in Hin as (T1 & T2 & _). rewrite Ea in T1. rewrite Eb in T2.
    destruct (Harr2 _ _ T1) as [a0 Ha0]. destruct (Harr2 _ _ T2) as [b0 Hb0].
    destruct (Harr _ _ Ha0) as (a' & Ha' & Sa). destruct (Harr _ _ Hb0) as (b' & Hb' & Sb).
    assert (a' = a) by (unfold the_array in *; congruence). assert (b' = b) by (unfold the_array in *; congruence). subst a' b'.
    unfold dynamic. rewrite (sa_traj Sa), (sa_traj Sb). split.
    - intros Hst. destruct (Hst _ _ Ha0 Hb0) as [-> ->]. auto.
    - intros Hd a1 b1 Ha1 Hb1. assert (a1 = a0) by (unfold the_array in *; congruence). assert (b1 = b0) by (unfold the_array in *; congruence). subst.
      destruct (a_traj a0), (a_traj b0); try discriminate. auto. }
  (* the filters just before the pass *)
  assert (Hflt : forall s m, In s (c_src c0) -> In m (c_mic c0) -> exists p0,
     lookup2 (c_paths c0) s m = Some p0 /\ lookup2 (c_paths (r_coll r')) s m = Some (P (T + 1) s m) /\
     same_shape p0 (P (T + 1) s m) = true /\ (static_pair s m -> P (T + 1) s m = p0) /\
     lookup2 fs1 s m = Some (mkFir (P (T + 1) s m) (map (r_tl r s) (zrange (T + 1 - hist_len (P (T + 1) s m)) (T + 1))))).
  { intros s m Hs Hm. destruct (l_path L s m Hs Hm) as (p0 & A1 & A2 & A3 & A4 & A5).
    destruct (@combos_dyn (r_coll r') cs s m F1 H4) as (a & b & Hin & Ea & Eb & Ha & Hb'); [rewrite Esrc; auto|rewrite Emic; auto|].
    pose proof (Hdyn s m a b Hin Ea Eb) as Hd. specialize (R1 a b Hin). rewrite Ea, Eb in R1.
    exists p0. split; auto. destruct (dynamic a || dynamic b) eqn:Qd.
    - destruct R1 as (f & p & B1 & B2 & B3 & B4). rewrite A5 in B1. inversion B1; subst f; clear B1. cbn [f_path f_buf] in *.
      assert (Ep : P (T + 1) s m = p). { rewrite HP. unfold path_of. rewrite B2. auto. }
      apply same_shape_spec in A3 as (X1 & X2 & X3). apply same_shape_spec in B3 as (Y1 & Y2 & Y3).
      rewrite Ep. split; auto. split; [apply same_shape_spec; repeat split; congruence|]. split.
      + intros Hst. apply Hd in Hst. discriminate.
      + rewrite B4. do 2 f_equal. unfold hist_len. rewrite Y3. auto.
    - assert (Hst : static_pair s m) by (apply Hd; auto).
      assert (Ep : lookup2 (c_paths (r_coll r')) s m = Some (P T s m)).
      { rewrite Epaths, <- A2. destruct (src_array s Hs) as (a0 & Ha0 & _). destruct (mic_array m Hm) as (b0 & Hb0 & _).
        destruct (l_arr L Ha0) as (a1 & Ha1 & Sa). destruct (l_arr L Hb0) as (b1 & Hb1 & Sb).
        destruct (Hst _ _ Ha0 Hb0) as [Ta Tb]. eapply U8; eauto; [rewrite (sa_traj Sa)|rewrite (sa_traj Sb)]; auto. }
      assert (Ep' : P (T + 1) s m = P T s m). { rewrite HP. unfold path_of. rewrite Ep. auto. }
      rewrite Ep'. rewrite R1. auto. }
  (* sources during the step *)
  assert (Hsrc3 : forall s u, In s (c_src c0) -> r_tl r' s u = tl2 s u).
  { intros s u Hs. rewrite Q3.
    - apply fold_none. intros [s' m'] Hin. apply in_prod_iff in Hin. simpl. intros Eq. subst. apply (@mic_not_src _ c0 m'); tauto.
    - destruct ct eqn:Qc; auto. right. intros [s' m'] Hin. apply in_prod_iff in Hin. simpl. rewrite <- Qc in *. apply src_not_con; tauto. }
  assert (Hsrc2 : forall nm u, u <= T -> tl2 nm u = r_tl r nm u).
  { intros nm u Hu. rewrite <- Past1 by auto. destruct (in_dec string_dec nm (c_free c0)) as [Hf|Hf].
    - destruct (F3 nm Hf) as (a & src & d & _ & _ & _ & _ & G). rewrite G. destruct (Z.leb_spec (T + 1) u); [lia|]. auto.
    - apply (F4 nm Hf). }
  assert (Past : forall nm u, u <= T -> r_tl r' nm u = r_tl r nm u).
  { intros nm u Hu. eapply ref_step_past; eauto. rewrite (l_procs L). apply Forall_map. cbn [pr_bs].
    eapply Forall_impl; [|exact Hb]. simpl. intros. lia. }
  assert (Hout : forall s m, In s (c_src c0) -> In m (c_mic c0) -> exists f,
     lookup2 fs1 s m = Some f /\
     fir_process f (map (tl2 s) (zrange (T + 1) (T + 1 + 1))) =
     (mkFir (P (T + 1) s m) (map (r_tl r' s) (zrange (T + 1 + 1 - hist_len (P (T + 1) s m)) (T + 1 + 1))),
      [response (P (T + 1) s m) (r_tl r' s) (T + 1)])).
  { intros s m Hs Hm. destruct (Hflt s m Hs Hm) as (p0 & _ & _ & _ & _ & B). eexists. split; [exact B|].
    assert (E1 : map (r_tl r s) (zrange (T + 1 - hist_len (P (T + 1) s m)) (T + 1)) = map (r_tl r' s) (zrange (T + 1 - hist_len (P (T + 1) s m)) (T + 1))).
    { apply map_ext_in. intros u Hu. apply In_zrange in Hu. symmetry. apply Past. lia. }
    assert (E2 : map (tl2 s) (zrange (T + 1) (T + 1 + 1)) = map (r_tl r' s) (zrange (T + 1) (T + 1 + 1))).
    { apply map_ext. intros u. symmetry. apply Hsrc3; auto. }
    rewrite E1, E2, fir_process_conv' by lia. f_equal. rewrite zrange_cons by lia. rewrite zrange_empty by lia. auto. }
  assert (Hys : forall s m, In s (c_src c0) -> In m (c_mic c0) ->
     outputs (T + 1) (T + 1 + 1) (fs1, tl2) (s, m) = [response (P (T + 1) s m) (r_tl r' s) (T + 1)]).
  { intros s m Hs Hm. destruct (Hout s m Hs Hm) as (f & B1 & B2). unfold outputs. cbn [fst snd]. rewrite B1, B2. auto. }
  assert (Hnm : forall s m b, In s (c_src c0) -> In m (c_mic c0) -> the_array c0 m b -> p_nm (P (T + 1) s m) = a_num b).
  { intros s m b Hs Hm Hb'. destruct (Hflt s m Hs Hm) as (p0 & A1 & _ & A3 & _). destruct (src_array s Hs) as (a0 & Ha0 & _).
    apply same_shape_spec in A3 as (_ & <- & _). eapply HS; eauto. }
  assert (Hmicu : forall m u, In m (c_mic c0) -> u <> T + 1 -> r_tl r' m u = tl2 m u).
  { intros m u Hm Hu. rewrite Q3.
    - apply fold_add_none. unfold pick1. destruct (Z.eqb_spec u (T + 1)); [lia|auto].
    - destruct ct eqn:Qc; auto. right. intros [s' m'] Hin. apply in_prod_iff in Hin. simpl. rewrite <- Qc in *. apply src_not_con; tauto. }
  assert (W3 : wide ds (r_tl r')).
  { eapply ref_step_wide; [exact H|]. intros ps tl H7. rewrite H2 in H7. inversion H7; subst. auto. }
  assert (Wx : forall T' nm u, T' <= T + 1 -> written ds (r_tl r') procs T' nm u = written ds (r_tl r) procs T' nm u).
  { intros T' nm u HT'. apply written_ext; auto. intros; apply Past; lia. }
  assert (Hmic2 : forall m u, In m (c_mic c0) -> T < u -> tl2 m u = written ds (r_tl r) procs (T + 1) m u).
  { intros m u Hm Hu. assert (Hf : ~ In m (c_free c0)). { intros Hf. apply (@free_is_src _ c0 m HO) in Hf. apply (@mic_not_src _ c0 m HO Hm Hf). }
    rewrite (proj2 (F4 m Hf)). apply Hwr. apply (l_rest L); auto.
    destruct ct eqn:Qc; auto. right. intros s' m' Hs' Hm'. rewrite <- Qc in *. apply src_not_con; auto. }
  assert (Hwin : forall s u, In s (c_src c0) -> u <= T -> r_tl r s u = r_tl r' s u). { intros; symmetry; apply Past; auto. }
  split; auto.
  - (* paths and filters *)
    intros s m Hs Hm. destruct (Hflt s m Hs Hm) as (p0 & A1 & A2 & A3 & A4 & A5). exists p0. repeat (split; [assumption|]).
    destruct (Hout s m Hs Hm) as (f & B1 & B2). destruct (Q1 s m) as (f' & B3 & B4); [apply in_prod; auto|].
    rewrite B1 in B3. inversion B3; subst f'. rewrite B4, B2. auto.
  - (* free sources *)
    intros k a0 Hk Ha0. destruct (l_draw L Hk Ha0) as (src & a & A1 & A2 & A3 & A4).
    destruct (F3 k Hk) as (a1 & src1 & d & G1 & G2 & G3 & G4 & G5).
    assert (Es : a_source a1 = a_source a).
    { destruct (U7 _ _ A2) as (a2 & Ha2 & [E2|E2]); assert (a2 = a1) by (unfold the_array in *; congruence); subst; auto. apply arr_update_source. }
    assert (E1 : src1 = fst (nth_draw src n0 (Z.to_nat T))) by congruence.
    assert (ET : Z.to_nat (T + 1) = Datatypes.S (Z.to_nat T)) by lia.
    exists src. eexists. split; [exact A1|]. split; [exact G4|]. split.
    + cbn [a_source with_source]. rewrite ET. cbn [nth_draw]. rewrite E1. auto.
    + intros t Ht. rewrite Hsrc3 by (apply free_is_src; auto). destruct (Z.eq_dec t (T + 1)) as [->|Hne].
      * rewrite G5. destruct (Z.leb_spec (T + 1) (T + 1)), (Z.ltb_spec (T + 1) (T + 1 + 1)); simpl; try lia.
        unfold free_signal. destruct (Z.leb_spec (T + 1) 0); [lia|].
        rewrite ET. cbn [nth_draw]. rewrite <- E1. replace (T + 1 - (T + 1)) with 0 by lia.
        assert (Ed : d = a_num a0). { pose proof (no_dim HN Ha0). congruence. } subst d.
        destruct (Z.ltb_spec (T + 1) (1 - n0)); auto. lia.
      * rewrite Hsrc2 by lia. apply A4. lia.
  - (* processors *)
    rewrite Hps. apply map_ext_in. intros p Hp. f_equal. apply state_after_ext.
    + exact (proj1 (Forall_forall _ _) Hb p Hp).
    + intros nm u Hu. symmetry. apply Past. pose proof (proj1 (Forall_forall _ _) Hb p Hp) as Hbp. simpl in Hbp.
      pose proof (Z.mul_div_le (T + 1) (pr_bs p)). rewrite Z2Nat.id in Hu by (apply Z.div_pos; lia). lia.
  - (* other signals *)
    intros nm u Hnf Hnc Hor.
    assert (E2 : r_tl r' nm u = tl2 nm u).
    { destruct (in_dec string_dec nm (c_mic c0)) as [Hm|Hm].
      - apply Hmicu; auto. destruct Hor; [tauto|lia].
      - rewrite Q3.
        + apply fold_none. intros [s' m'] Hin Eq. apply in_prod_iff in Hin. simpl in Eq. subst. tauto.
        + destruct Hnc as [|Hnc]; auto. right. intros [s' m'] Hin. apply in_prod_iff in Hin. apply Hnc; tauto. }
    rewrite E2, (proj2 (F4 nm Hnf)), Wx by lia. apply Hwr. apply (l_rest L); auto. destruct Hor; auto. right. lia.
  - (* microphones *)
    intros m b t Hm Hmb Ht. destruct (Z.eq_dec t (T + 1)) as [->|Hne].
    + rewrite Q3. 2:{ destruct ct eqn:Qc; auto. right. intros [s' m'] Hin. apply in_prod_iff in Hin. simpl. rewrite <- Qc in *. apply src_not_con; tauto. }
      rewrite Wx by lia. rewrite <- (Hmic2 m (T + 1)) by (auto; lia).
      set (h := fun s => response (P (T + 1) s m) (r_tl r' s) (T + 1)).
      rewrite fold_left_ext_in with (g := fun v p => if String.eqb m (snd p) then (fun s v => fadd_tot v (h s)) (fst p) v else v).
      * etransitivity; [apply (@fold_prod _ (fun s v => fadd_tot v (h s)) m (c_src c0) (c_mic c0)); [apply NoDup_mic; auto|auto]|]. rewrite (fold_left_map fadd_tot h). apply mix_on_fold.
        -- assert (Hf : ~ In m (c_free c0)). { intros Hf. apply (@free_is_src _ c0 m HO) in Hf. apply (@mic_not_src _ c0 m HO Hm Hf). }
           rewrite (proj2 (F4 m Hf)). apply W1. apply (no_dim HN Hmb).
        -- apply Forall_map, Forall_forall. intros s Hs. unfold h. rewrite zlen_response, (Hnm s m b); auto.
      * intros v [s' m'] Hin. apply in_prod_iff in Hin as [Hs' Hm']. cbn [fst snd]. destruct (String.eqb_spec m m'); auto. subst m'.
        rewrite Hys by auto. unfold add_at, pick1. rewrite Z.eqb_refl. unfold zget. simpl. auto.
    + rewrite Past by lia. rewrite (l_out L Hm Hmb) by lia. rewrite Wx by lia.
      rewrite (@written_later _ _ ds (r_tl r) procs (T + 1) T) by (auto; lia). f_equal. apply map_ext_in. intros s Hs.
      apply response_ext. intros u Hu. apply Hwin; auto. lia.
  - (* contributions *)
    intros Hc s m t Hs Hm Ht. destruct (Z.eq_dec t (T + 1)) as [->|Hne].
    + destruct (mic_array m Hm) as (b & Hmb & _).
      assert (Hys' := Hys s m Hs Hm).
      pose proof (Q4 Hc (s, m)) as K. cbn [fst snd] in K. rewrite K; [|apply in_prod; auto|].
      * rewrite Hys'. replace (T + 1 - (T + 1)) with 0 by lia. unfold zget. simpl. auto.
      * rewrite Hys'. constructor; [|constructor]. rewrite (no_con HN Hc s Hs Hm Hmb). rewrite zlen_response, (Hnm s m b) by auto. rewrite Z.max_r; auto. eapply Hnum; eauto.
    + rewrite Past by lia. rewrite (l_con L Hc s m Hs Hm) by lia. apply response_ext. intros u Hu. apply Hwin; auto. lia.
Qed.
End Inv.
