(** Whole runs: the main loop and what every diagnostic has seen. *)
Require Import Verif.PyBase Verif.PyLemmas Verif.ConfigModel Verif.ArrayModel Verif.LoggerModel
  Verif.LoggerSpec Verif.LoggerProofs Verif.SimModel Verif.SimSpec Verif.SimRefine Verif.SimRun.
Set Implicit Arguments.
Ltac Zify.zify_post_hook ::= Z.div_mod_to_equations.
Arguments Z.sub : simpl never.
Arguments Z.add : simpl never.

(* ------------------------------------------------------------------ the index of the main loop *)
Fixpoint idx_at (i : info) (mbs : Z) (n : nat) : Z :=
  match n with
  | O => sim_buffer i
  | S k => let x := idx_at i mbs k in
           (if sim_chunk_size i + sim_buffer i <=? x + mbs then x - sim_chunk_size i else x) + 1
  end.
(** is step g the last before the buffer is moved? *)
Definition last_at (i : info) (mbs g : Z) : bool :=
  sim_chunk_size i + sim_buffer i <=? idx_at i mbs (Z.to_nat g) + mbs.

Lemma idx_at_ok i mbs n : 1 <= sim_chunk_size i -> 1 <= mbs -> idx_ok i mbs (Z.of_nat n) (idx_at i mbs n).
Proof.
  intros HC Hm. induction n as [|n IH].
  - unfold idx_ok; simpl. lia.
  - cbn [idx_at]. replace (Z.of_nat (S n)) with (Z.of_nat n + 1) by lia. apply idx_ok_step; auto; lia.
Qed.

Lemma ivs_ok_starts lo l : ivs_ok lo l -> Forall (fun iv => lo <= fst iv) l.
Proof.
  revert lo; induction l as [|[s e] r IH]; simpl; intros lo H; constructor; simpl; try lia.
  eapply Forall_impl; [|apply IH; apply H]. simpl; intros; lia.
Qed.

(** what remains to be saved is still in the buffer *)
Lemma rest_starts i mbs l n :
  1 <= sim_chunk_size i -> 1 <= mbs -> mbs + 1 <= sim_buffer i ->
  ivs_ok (1 - sim_buffer i) l -> Forall (fun iv => 0 <= snd iv) l ->
  Forall (fun iv => Z.of_nat n + 1 - idx_at i mbs n <= fst iv) (snd (tile_run (last_at i mbs) l n)).
Proof.
  intros HC Hm HB HO H0. induction n as [|n IH].
  - cbn [tile_run snd idx_at]. eapply Forall_impl; [|apply ivs_ok_starts; exact HO]. simpl; intros; lia.
  - cbn [tile_run idx_at].
    pose proof (@tile_run_ok (last_at i mbs) _ _ n HO H0) as HT.
    destruct (tile_run (last_at i mbs) l n) as [ts r]. destruct HT as [_ _ T3 [lo T4] _].
    cbn [snd] in IH. unfold tile_step. unfold last_at. rewrite Nat2Z.id.
    destruct r as [|[s e] r']; [constructor|].
    pose proof (Forall_inv T3) as [_ T5]; simpl in T5. simpl in T4. destruct T4 as (_ & T6 & T7).
    pose proof (@ivs_ok_starts _ _ T7) as T8.
    destruct (Z.leb_spec (sim_chunk_size i + sim_buffer i) (idx_at i mbs n + mbs)) as [L|L].
    + assert (HH : Z.of_nat (S n) + 1 - (idx_at i mbs n - sim_chunk_size i + 1) <= Z.of_nat n) by lia.
      destruct (Z.leb_spec e (Z.of_nat n)); simpl.
      * eapply Forall_impl; [|exact T8]. simpl; intros; lia.
      * destruct (Z.ltb_spec s (Z.of_nat n)); simpl.
        -- constructor; simpl; [lia|]. eapply Forall_impl; [|exact T8]. simpl; intros; lia.
        -- constructor; simpl; [lia|]. eapply Forall_impl; [|exact T8]. simpl; intros; lia.
    + assert (IH' : Forall (fun iv => Z.of_nat (S n) + 1 - (idx_at i mbs n + 1) <= fst iv) ((s, e) :: r')).
      { eapply Forall_impl; [|exact IH]. simpl; intros; lia. }
      destruct (e <=? Z.of_nat n); simpl; auto. inversion IH'; auto.
Qed.

(** the end of the last save, and all ends *)
Lemma last_end_snoc ts t : last_end (ts ++ [t]) = snd t.
Proof. induction ts as [|x ts IH]; simpl; auto. destruct (ts ++ [t]) eqn:E; [destruct ts; discriminate|auto]. Qed.

Lemma tile_ends last lo l n : ivs_ok lo l -> Forall (fun iv => 0 <= snd iv) l ->
  Forall (fun t => snd t <= last_end (fst (tile_run last l n))) (fst (tile_run last l n)) /\
  0 <= last_end (fst (tile_run last l n)) /\ (last_end (fst (tile_run last l n)) < Z.of_nat n \/ n = 0%nat /\ fst (tile_run last l n) = []).
Proof.
  intros HO H0. induction n as [|n IH]; [simpl; split; [constructor|]; split; [lia|auto]|].
  pose proof (@tile_run_ok last _ _ n HO H0) as HT. pose proof (@tile_step_end last _ _ n HO H0) as HE.
  cbn [tile_run] in *. destruct (tile_run last l n) as [ts r]. cbn [fst] in *. destruct HT as [_ T2 _ _ _].
  destruct (tile_step r (Z.of_nat n) (last (Z.of_nat n))) as [[t|] r']; cbn [fst] in *.
  - rewrite last_end_snoc. split; [|lia]. apply Forall_app; split.
    + eapply Forall_impl; [|exact T2]. simpl; intros; lia.
    + constructor; auto. lia.
  - destruct IH as (I1 & I2 & I3). split; [auto|]. split; [auto|]. left.
    destruct I3 as [I3|[I3 I4]]; [lia|]. rewrite I4; simpl. lia.
Qed.

Lemma tiles_until_old e ts t : (exists x, In x ts /\ e <= snd x) -> tiles_until e (ts ++ [t]) = tiles_until e ts.
Proof.
  induction ts as [|x ts IH]; intros (y & HI & Hy); [destruct HI|]. simpl.
  destruct (Z.leb_spec e (snd x)); auto. f_equal. apply IH. destruct HI as [->|HI]; [lia|eauto].
Qed.
Lemma tiles_until_new e ts t : Forall (fun x => snd x < e) ts -> tiles_until e (ts ++ [t]) = ts ++ [t].
Proof.
  induction ts as [|x ts IH]; intros HF; simpl.
  - destruct (e <=? snd t); auto.
  - inversion HF; subst. destruct (Z.leb_spec e (snd x)); [lia|]. f_equal; auto.
Qed.
Lemma last_end_In ts : ts <> [] -> exists x, In x ts /\ snd x = last_end ts.
Proof.
  induction ts as [|x ts IH]; [congruence|]. intros _. destruct ts as [|y ts]; [exists x; simpl; auto|].
  destruct IH as (z & HI & E); [congruence|]. exists z; split; [right; auto|]. exact E.
Qed.
Lemma nondec_tail e x : nondecreasing (e :: x) -> nondecreasing x /\ Forall (fun y => e <= y) x.
Proof.
  revert e; induction x as [|y x IH]; intros e H; [split; simpl; auto|].
  destruct H as [H1 H2]. split; auto. destruct (IH _ H2) as [_ HF]. constructor; auto.
  eapply Forall_impl; [|exact HF]. simpl; intros; lia.
Qed.
Lemma not_due_gt x s : nondecreasing x -> Forall (fun e => s < e) (not_due x s).
Proof.
  induction x as [|e x IH]; intros H; [constructor|]. destruct (nondec_tail _ _ H) as [H1 H2].
  cbn [not_due]. destruct (Z.leb_spec e s); [apply IH; auto|].
  constructor; auto. eapply Forall_impl; [|exact H2]. simpl; intros; lia.
Qed.
Lemma due_pos x : Forall (fun e => 1 <= e) x -> due x 0 = [] /\ not_due x 0 = x.
Proof. intros H; destruct H; simpl; auto. destruct (Z.leb_spec x 0); [lia|auto]. Qed.

Section Diag.
Context {E : AEnv} {S : SEnv}.
Notation arr := (arr Pos Src).

(* ------------------------------------------------------------------ a step does not rewrite the past *)
Lemma ref_free_past ds t n acc nm acc' u nm' : 0 <= n -> u < t ->
  ref_free ds t n acc nm = Ok acc' -> snd acc' nm' u = snd acc nm' u.
Proof.
  intros Hn Hu H. destruct acc as [c tl]. unfold ref_free in H.
  apply bind_ok in H as (ar & _ & H). destruct (a_source ar); [|discriminate].
  destruct (src_get s n) as [s' xs]. apply bind_ok in H as (tl' & E1 & H). inversion H; subst; simpl in *.
  eapply tl_write_frame; eauto.
Qed.
Lemma ref_pair_past ct ds t acc sm acc' u nm' : u < t ->
  ref_pair ct ds t acc sm = Ok acc' -> snd acc' nm' u = snd acc nm' u.
Proof.
  intros Hu H. destruct acc as [fs tl]. unfold ref_pair in H.
  apply bind_ok in H as (f & _ & H). apply bind_ok in H as (d & _ & H).
  destruct (fir_step f _) as [f' y]. apply bind_ok in H as (fs' & _ & H).
  apply bind_ok in H as (tl1 & E1 & H). apply bind_ok in H as (tl2 & E2 & H). inversion H; subst; simpl in *.
  transitivity (tl1 nm' u).
  - destruct ct; [|inversion E2; subst; auto]. eapply tl_write_frame; try exact E2; auto; lia.
  - eapply tl_add_frame; eauto. lia.
Qed.
Lemma ref_procs_past ds t acc p acc' u nm' : u < t -> 0 <= pr_bs p ->
  ref_procs ds t acc p = Ok acc' -> snd acc' nm' u = snd acc nm' u.
Proof.
  intros Hu Hb H. destruct acc as [ps tl]. unfold ref_procs in H.
  destruct (pr_bs p =? 0); [discriminate|]. destruct (_ =? 0).
  - apply bind_ok in H as (r & Er & H). inversion H; subst; simpl. unfold ref_process in Er.
    destruct (pr_step p _ _) as [ps' outs]. apply bind_ok in Er as (tl' & E1 & Er). inversion Er; subst; simpl.
    eapply (foldM_inv (fun tl o => tl_write ds tl (fst o) t (pr_bs p) (snd o)) (fun x => x nm' u = tl nm' u)) in E1; auto.
    intros a x a' _ Ha Ew. rewrite <- Ha. eapply tl_write_frame; eauto.
  - inversion H; subst; auto.
Qed.
Lemma ref_step_past ct ds g r r' : Forall (fun p => 0 <= pr_bs p) (r_procs r) ->
  ref_step ct ds g r = Ok r' -> forall nm t, t <= g -> r_tl r' nm t = r_tl r nm t.
Proof.
  intros HP H nm t Ht. unfold ref_step in H.
  apply bind_ok in H as (c & _ & H). apply bind_ok in H as ([ps tl] & E1 & H).
  apply bind_ok in H as ([c2 tl2] & E2 & H). apply bind_ok in H as (combos & _ & H).
  apply bind_ok in H as (fs & _ & H). apply bind_ok in H as (ft & E3 & H). inversion H; subst r'; clear H; simpl.
  eapply (foldM_inv (ref_procs ds (g + 1)) (fun x => snd x nm t = r_tl r nm t)) in E1; auto.
  2:{ intros a p a' Hin Ha Er. rewrite Forall_forall in HP. rewrite <- Ha. eapply ref_procs_past; try exact Er; auto; lia. }
  eapply (foldM_inv (ref_free ds (g + 1) 1) (fun x => snd x nm t = r_tl r nm t)) in E2; auto.
  2:{ intros a p a' Hin Ha Er. rewrite <- Ha. eapply ref_free_past; try exact Er; auto; lia. }
  eapply (foldM_inv (ref_pair ct ds (g + 1)) (fun x => snd x nm t = r_tl r nm t)) in E3; auto.
  intros a p a' Hin Ha Er. rewrite <- Ha. eapply ref_pair_past; try exact Er; auto; lia.
Qed.

Lemma saves_ext ds tl tl' ps d ts :
  (forall t, In t ts -> forall nm u, u < snd t -> tl nm u = tl' nm u) ->
  saves ds tl ps d ts = saves ds tl' ps d ts.
Proof.
  unfold saves. revert d; induction ts as [|t ts IH]; simpl; intros d H; auto.
  assert (Ew : window ds tl (fst t) (snd t) = window ds tl' (fst t) (snd t)).
  { unfold window. apply map_ext. intros [k dd]. f_equal. apply map_ext_in. intros u Hu.
    apply In_zrange in Hu. apply (H t); auto. lia. }
  rewrite Ew. destruct (dsave _ _ _ _); cbn [bind]; auto. apply IH. intros t0 Ht0; apply H; auto.
Qed.
Lemma saves_app ds tl ps d t1 t2 : saves ds tl ps d (t1 ++ t2) = (x <- saves ds tl ps d t1 ;; saves ds tl ps x t2).
Proof. unfold saves. rewrite foldM_app. auto. Qed.

(* ------------------------------------------------------------------ saving and exporting in one step *)
Lemma save_data_keys cp s idx g lb dg dg' : save_data dsave cp s idx g lb dg = Ok dg' -> dkeys dg' = dkeys dg.
Proof.
  unfold save_data. revert dg'; induction dg as [|[k d] r IH]; simpl; intros dg' H.
  - inversion H; auto.
  - apply bind_ok in H as (y & E1 & H). apply bind_ok in H as (ys & E2 & H). inversion H; subst.
    apply bind_ok in E1 as (d' & _ & E1). inversion E1; subst. unfold dkeys in *. simpl. f_equal. apply IH; auto.
Qed.
Lemma save_data_get cp s idx g lb dg dg' nm d : save_data dsave cp s idx g lb dg = Ok dg' ->
  dget dg nm = Some d -> exists d', dget dg' nm = Some d' /\ save_one dsave cp s idx g lb d = Ok d'.
Proof.
  unfold save_data. revert dg'; induction dg as [|[k x] r IH]; simpl; intros dg' H Hd; [discriminate|].
  apply bind_ok in H as (y & E1 & H). apply bind_ok in H as (ys & E2 & H). inversion H; subst.
  apply bind_ok in E1 as (d' & E1 & E3). inversion E3; subst; simpl in *.
  destruct (String.eqb_spec nm k).
  - inversion Hd; subst. eauto.
  - apply IH; auto.
Qed.
Lemma save_data_total cp s idx g lb dg :
  (forall pl p v ab, exists pl', dsave pl p v ab = Ok pl') -> exists dg', save_data dsave cp s idx g lb dg = Ok dg'.
Proof.
  intros H. unfold save_data. induction dg as [|[k d] r [r' IH]]; simpl; eauto.
  destruct (save_one_total dsave dout cp s idx g lb d H) as [d' ->]; simpl. rewrite IH; simpl; eauto.
Qed.

(** hypotheses on a diagnostic: increasing save intervals that are not older than the buffer, and
    export times in order, from 1 on *)
Definition diag_ok (i : info) (d : diag D) : Prop :=
  iv_wf (d_iv d) /\ iv_saved (d_iv d) = 0 /\ ix_wf (d_ix d) /\
  ivs_ok (1 - sim_buffer i) (iv_list (d_iv d)) /\ Forall (fun iv => 0 <= snd iv) (iv_list (d_iv d)) /\
  nondecreasing (ix_list (d_ix d)) /\ Forall (fun e => 1 <= e) (ix_list (d_ix d)).

(** what a diagnostic has seen and exported after n steps *)
Record seen (i : info) (mbs : Z) (ds : dims) (psf : Z -> option PS) (n : nat) (tl : timeline)
    (nm : string) (d0 d : diag D) (out : list (string * Z * Out)) : Prop := {
  se_ivwf : iv_wf (d_iv d);
  se_ixwf : ix_wf (d_ix d);
  se_rest : iv_list (d_iv d) = snd (tile_run (last_at i mbs) (iv_list (d_iv d0)) n);
  se_saved : iv_saved (d_iv d) = last_end (fst (tile_run (last_at i mbs) (iv_list (d_iv d0)) n));
  se_pl : saves ds tl psf (d_pl d0) (fst (tile_run (last_at i mbs) (iv_list (d_iv d0)) n)) = Ok (d_pl d);
  se_none : plot_output i = "none"%string -> d_ix d = d_ix d0 /\ exports_of nm out = [];
  se_exp : plot_output i <> "none"%string ->
    let ts := fst (tile_run (last_at i mbs) (iv_list (d_iv d0)) n) in
    ix_list (d_ix d) = not_due (ix_list (d_ix d0)) (last_end ts) /\
    exists os, exports_of nm out = combine (due (ix_list (d_ix d0)) (last_end ts)) os /\
      Forall2 (fun e o => exists p, saves ds tl psf (d_pl d0) (tiles_until e ts) = Ok p /\ dout p e = Ok o)
              (due (ix_list (d_ix d0)) (last_end ts)) os
}.

Lemma seen_start i mbs ds psf tl nm d0 : diag_ok i d0 -> seen i mbs ds psf 0 tl nm d0 d0 [].
Proof.
  intros (H1 & H2 & H3 & H4 & H5 & H6 & H7). constructor; simpl; auto.
  intros _. destruct (due_pos H7) as [-> ->]. split; auto. exists []; simpl; auto.
Qed.

Lemma Forall2_impl {A B} (P Q : A -> B -> Prop) l1 l2 : (forall a b, In a l1 -> P a b -> Q a b) ->
  Forall2 P l1 l2 -> Forall2 Q l1 l2.
Proof. intros H HF; induction HF; constructor; auto; [apply H; simpl; auto|]. apply IHHF. intros; apply H; simpl; auto. Qed.

Lemma seen_tl i mbs ds psf n tl tl' nm d0 d out : diag_ok i d0 ->
  (forall nm u, u < Z.of_nat n -> tl nm u = tl' nm u) ->
  seen i mbs ds psf n tl nm d0 d out -> seen i mbs ds psf n tl' nm d0 d out.
Proof.
  intros HD HT [S1 S2 S3 S4 S5 S6 S7].
  destruct HD as (_ & _ & _ & D4 & D5 & _).
  pose proof (@tile_ends (last_at i mbs) _ _ n D4 D5) as (HE & _ & HE3).
  set (ts := fst (tile_run (last_at i mbs) (iv_list (d_iv d0)) n)) in *.
  assert (HX : forall l, (forall t, In t l -> In t ts) -> saves ds tl psf (d_pl d0) l = saves ds tl' psf (d_pl d0) l).
  { intros l Hl. apply saves_ext. intros t Ht nm' u Hu. apply HT. rewrite Forall_forall in HE. specialize (HE _ (Hl _ Ht)).
    destruct HE3 as [|[_ E0]]; [lia|]. exfalso. specialize (Hl _ Ht). rewrite E0 in Hl. exact Hl. }
  constructor; auto.
  - fold ts. rewrite <- HX; auto.
  - intros Hp. destruct (S7 Hp) as (A & os & B & C). split; auto. exists os; split; auto.
    eapply Forall2_impl; [|exact C]. intros e o _ (p & P1 & P2). exists p; split; auto. rewrite <- HX; auto.
    intros t Ht. clear - Ht. fold ts in Ht. revert Ht. generalize ts. induction ts0 as [|x l IH]; simpl; auto.
    destruct (e <=? snd x); simpl; intuition.
Qed.

(** one step: save_data, then dispatch *)
Lemma seen_step i mbs ds psf n tl nm d0 (dg : dict (diag D)) out d cp sigs dg1 dg2 out2 :
  1 <= sim_chunk_size i -> 1 <= mbs -> mbs + 1 <= sim_buffer i ->
  diag_ok i d0 -> NoDup (dkeys dg) -> all_ix_wf dg ->
  dget dg nm = Some d -> seen i mbs ds psf n tl nm d0 d out ->
  sig_rel (sim_buffer i + sim_chunk_size i) (Z.of_nat n + 1 - idx_at i mbs n) ds tl sigs ->
  psf (Z.of_nat n) = cp ->
  save_data dsave cp sigs (idx_at i mbs n) (Z.of_nat n) (last_at i mbs (Z.of_nat n)) dg = Ok dg1 ->
  all_ix_wf dg1 ->
  dispatch dout (plot_output i) (dg1, out) = Ok (dg2, out2) ->
  exists d', dget dg2 nm = Some d' /\ seen i mbs ds psf (Datatypes.S n) tl nm d0 d' out2.
Proof.
  intros HC Hm HB HD HN HW Hg HS HR Hps Hsv HW1 Hdi.
  pose proof HD as (D1 & D2 & D3 & D4 & D5 & D6 & D7).
  destruct HS as [S1 S2 S3 S4 S5 S6 S7].
  destruct (save_data_get _ _ _ _ _ _ _ Hsv Hg) as (d1 & Hg1 & Hso).
  pose proof (@rest_starts i mbs (iv_list (d_iv d0)) n HC Hm HB D4 D5) as HRS.
  pose proof (@tile_ends (last_at i mbs) _ _ n D4 D5) as (HE1 & HE2 & HE3).
  pose proof (@tile_ends (last_at i mbs) _ _ (Datatypes.S n) D4 D5) as (HF1 & HF2 & HF3).
  pose proof (@tile_step_end (last_at i mbs) _ _ n D4 D5) as HTE.
  pose proof (@tile_run_ok (last_at i mbs) _ _ (Datatypes.S n) D4 D5) as HTO.
  apply (save_one_spec dsave dout) in Hso as (W1 & X1 & Hso); auto.
  (* state after saving *)
  assert (Hsav :
     iv_list (d_iv d1) = snd (tile_run (last_at i mbs) (iv_list (d_iv d0)) (Datatypes.S n)) /\
     iv_saved (d_iv d1) = last_end (fst (tile_run (last_at i mbs) (iv_list (d_iv d0)) (Datatypes.S n))) /\
     saves ds tl psf (d_pl d0) (fst (tile_run (last_at i mbs) (iv_list (d_iv d0)) (Datatypes.S n))) = Ok (d_pl d1) /\
     (fst (tile_run (last_at i mbs) (iv_list (d_iv d0)) (Datatypes.S n)) = fst (tile_run (last_at i mbs) (iv_list (d_iv d0)) n) \/
      exists t, fst (tile_run (last_at i mbs) (iv_list (d_iv d0)) (Datatypes.S n)) = fst (tile_run (last_at i mbs) (iv_list (d_iv d0)) n) ++ [t]
        /\ snd t = Z.of_nat n)).
  { cbn [tile_run] in *. rewrite S3 in Hso.
    destruct (tile_run (last_at i mbs) (iv_list (d_iv d0)) n) as [ts r]. cbn [fst snd] in *.
    destruct (tile_step r (Z.of_nat n) (last_at i mbs (Z.of_nat n))) as [[[a b]|] r'] eqn:Et; cbn [fst snd] in *.
    - subst b. destruct Hso as (H1 & H2 & H3).
      assert (Hab : Z.of_nat n + 1 - idx_at i mbs n <= a /\ a < Z.of_nat n).
      { destruct HTO as [_ T2 _ _ _]. apply Forall_app in T2 as [_ T2]. apply Forall_inv in T2 as (_ & T2 & _). cbn [fst snd] in T2.
        split; [|lia]. unfold tile_step in Et. destruct r as [|[s e] r0]; [discriminate|]. apply Forall_inv in HRS. simpl in HRS.
        cbn [fst] in HRS. destruct (e <=? Z.of_nat n); [injection Et as E1 E2 E3; lia|].
        destruct (_ && _); [injection Et as E1 E2; lia|discriminate]. }
      pose proof (@idx_at_ok i mbs n HC Hm) as HI. unfold idx_ok in HI.
      rewrite (view_rel HR) in H3 by lia.
      replace (idx_at i mbs n - Z.of_nat n + a - 1 + (Z.of_nat n + 1 - idx_at i mbs n)) with a in H3 by lia.
      replace (idx_at i mbs n - Z.of_nat n + Z.of_nat n - 1 + (Z.of_nat n + 1 - idx_at i mbs n)) with (Z.of_nat n) in H3 by lia.
      split; auto. rewrite last_end_snoc. split; auto. split; [|right; exists (a, Z.of_nat n); auto].
      rewrite saves_app, S5. cbn [bind]. unfold saves. cbn [foldM fst snd]. rewrite Hps, H3. reflexivity.
    - destruct Hso as (H1 & H2). subst d1. repeat split; auto. }
  destruct Hsav as (P1 & P2 & P3 & P4). clear Hso.
  (* exports *)
  apply dispatch_lane in Hdi as (HL & HK & HSet & HNone); auto.
  2:{ cbn [fst]. rewrite (save_data_keys _ _ _ _ _ _ Hsv). auto. }
  specialize (HL nm). unfold lane in HL. cbn [fst snd] in *. rewrite Hg1 in HL.
  destruct (dget dg2 nm) as [d2|] eqn:Hg2; [|tauto]. exists d2; split; auto.
  destruct HL as (L1 & L2 & L3 & es & os & L4 & L5 & L6 & L7).
  set (ts := fst (tile_run (last_at i mbs) (iv_list (d_iv d0)) n)) in *.
  set (ts' := fst (tile_run (last_at i mbs) (iv_list (d_iv d0)) (Datatypes.S n))) in *.
  constructor; auto; fold ts'; try congruence.
  - intros Hp. specialize (HNone Hp). inversion HNone; subst. destruct (S6 Hp) as [A B]. split; auto.
    rewrite Hg1 in Hg2. inversion Hg2; subst. congruence.
  - intros Hp. destruct (S7 Hp) as (A & os0 & B & C). cbv zeta in A, B, C. fold ts in A, B, C.
    specialize (HSet Hp nm d2 Hg2). rewrite L1, P2 in HSet. rewrite X1 in L4. rewrite P2 in L5.
    set (x0 := ix_list (d_ix d0)) in *.
    assert (Hle : last_end ts <= last_end ts').
    { destruct P4 as [->|(t & -> & Ht)]; [lia|]. rewrite last_end_snoc. destruct HE3 as [|[_ E0]]; [lia|]. rewrite E0. simpl. lia. }
    destruct (@due_unique (due x0 (last_end ts) ++ es) (ix_list (d_ix d2)) (last_end ts') x0) as [Q1 Q2]; auto.
    { rewrite <- app_assoc, <- L4, A. apply due_app. }
    { apply Forall_app; split; auto. eapply Forall_impl; [|apply due_le]. simpl; intros; lia. }
    split; auto. exists (os0 ++ os).
    rewrite <- Q1. split.
    + rewrite L6, B, combine_app; auto. apply Forall2_len in C; auto.
    + apply Forall2_app.
      * eapply Forall2_impl; [|exact C]. intros e o Hin (p & G1 & G2). exists p; split; auto.
        assert (He : tiles_until e ts' = tiles_until e ts); [|rewrite He; auto].
        destruct P4 as [->|(t & -> & Ht)]; auto. apply tiles_until_old.
        pose proof (due_le x0 (last_end ts)) as HL0. rewrite Forall_forall in HL0. specialize (HL0 _ Hin).
        assert (H1e : 1 <= e).
        { rewrite Forall_forall in D7. apply D7. fold x0. rewrite (due_app x0 (last_end ts)). apply in_or_app; auto. }
        destruct (@last_end_In ts) as (x & Hx & Ex).
        { intros E0. rewrite E0 in HL0. simpl in HL0. lia. }
        exists x; split; auto. lia.
      * assert (He : Forall (fun e => last_end ts < e) es).
        { pose proof (@not_due_gt x0 (last_end ts) D6) as HG. rewrite <- A, L4 in HG. apply Forall_app in HG. tauto. }
        eapply Forall2_impl; [|exact L7]. intros e o Hin Ho. exists (d_pl d1). split; auto.
        rewrite Forall_forall in He, L5. specialize (He _ Hin). specialize (L5 _ Hin).
        destruct P4 as [Et|(t & Et & Ht)]; [rewrite Et in L5; lia|].
        rewrite Et, tiles_until_new; [rewrite <- Et; auto|].
        eapply Forall_impl; [|exact HE1]. fold ts. simpl; intros; lia.
Qed.
End Diag.
