(** Lemmas about IntervalCounter / IndexCounter / Logger. *)
Require Import Verif.PyBase Verif.PyLemmas Verif.LoggerModel Verif.LoggerSpec.
Set Implicit Arguments.
Ltac Zify.zify_post_hook ::= Z.div_mod_to_equations.

(* ---------------------------------------------------------------- lists behind the counters *)
Definition iv_list (c : ivc) : list (Z * Z) :=
  match iv_start c, iv_end c with Fin s, Fin e => (s, e) :: iv_rest c | _, _ => [] end.
Definition iv_wf (c : ivc) : Prop :=
  match iv_start c, iv_end c with Fin _, Fin _ => True | Inf, Inf => iv_rest c = [] | _, _ => False end.
Definition ix_list (c : ixc) : list Z := match ix_next c with Fin e => e :: ix_rest c | Inf => [] end.
Definition ix_wf (c : ixc) : Prop := match ix_next c with Inf => ix_rest c = [] | _ => True end.

Lemma ivc_make_list l n : iv_list (ivc_make l n) = l.
Proof. destruct l as [|[s e] r]; reflexivity. Qed.
Lemma ivc_make_wf l n : iv_wf (ivc_make l n).
Proof. destruct l as [|[s e] r]; simpl; unfold iv_wf; simpl; auto. Qed.
Lemma ivc_make_saved l n : iv_saved (ivc_make l n) = 0.
Proof. destruct l as [|[s e] r]; reflexivity. Qed.
Lemma ixc_make_list l : ix_list (ixc_make l) = l.
Proof. destruct l; reflexivity. Qed.
Lemma ixc_progress_list c : ix_list (ixc_progress c) = match ix_list c with [] => ix_rest c | _ :: r => r end.
Proof. unfold ixc_progress, ix_list. destruct c as [n r]; simpl. destruct n; destruct r; reflexivity. Qed.

(* ---------------------------------------------------------------- one save step *)
Definition tile_step (l : list (Z * Z)) (g : Z) (last : bool) : option (Z * Z) * list (Z * Z) :=
  match l with
  | [] => (None, [])
  | (s, e) :: r =>
    if e <=? g then (Some (s, e), r)
    else if last && (s <? g) then (Some (s, g), (g, e) :: r)
    else (None, l)
  end.

Lemma due_app x s : x = due x s ++ not_due x s.
Proof. induction x as [|e r IH]; simpl; auto. destruct (e <=? s); simpl; congruence. Qed.
Lemma due_le x s : Forall (fun e => e <= s) (due x s).
Proof. induction x as [|e r IH]; simpl; auto. destruct (Z.leb_spec e s); auto. Qed.
Lemma due_unique es r s x : x = es ++ r -> Forall (fun e => e <= s) es ->
  match r with e :: _ => s < e | [] => True end -> es = due x s /\ r = not_due x s.
Proof.
  intros -> H Hr. induction H; simpl.
  - destruct r as [|e r]; simpl; auto. destruct (Z.leb_spec e s); [lia|auto].
  - destruct (Z.leb_spec x s); [|lia]. destruct IHForall as [E1 E2]. split; congruence.
Qed.
Lemma not_due_head x s : match not_due x s with e :: _ => s < e | [] => True end.
Proof. induction x as [|e r IH]; simpl; auto. destruct (Z.leb_spec e s); auto. Qed.


Section Lane.
Variables (F PS D Out : Type).
Variable dsave : D -> option PS -> dict (list F) -> Z * Z -> res D.
Variable dout : D -> Z -> res Out.
Notation diag := (diag D).

Lemma save_one_spec proc sigs idx g last (d d' : diag) :
  iv_wf (d_iv d) -> save_one dsave proc sigs idx g last d = Ok d' ->
  iv_wf (d_iv d') /\ d_ix d' = d_ix d /\
  match tile_step (iv_list (d_iv d)) g last with
  | (None, r) => d' = d /\ iv_list (d_iv d') = r
  | (Some (a, b), r) =>
      iv_list (d_iv d') = r /\ iv_saved (d_iv d') = b /\
      dsave (d_pl d) proc (view sigs (idx - g + a - 1) (idx - g + b - 1)) (a, b) = Ok (d_pl d')
  end.
Proof.
  unfold save_one, iv_wf, iv_list. destruct d as [[rest st en sv num] ix pl]; simpl.
  destruct st as [s|], en as [e|]; simpl; intros HW H; try tauto.
  - destruct (Z.leb_spec e g).
    + apply bind_ok in H as (pl' & E1 & H). unfold ivc_progress in H; simpl in H.
      rewrite Z.leb_refl, Z.eqb_refl in H; simpl in H.
      destruct (iv_next rest) as [[r s'] e'] eqn:En. inversion H; subst d'; clear H; simpl.
      replace (idx - g + s - 1) with (idx - (g - e) - 1 - (e - s)) by lia.
      replace (idx - g + e - 1) with (idx - (g - e) - 1) by lia.
      destruct rest as [|[s2 e2] r2]; simpl in En; inversion En; subst; auto.
    + destruct (last && (s <? g)) eqn:El.
      * apply bind_ok in H as (pl' & E1 & H). unfold ivc_progress in H; simpl in H.
        destruct (Z.leb_spec g e); [|lia]. destruct (Z.eqb_spec g e); [lia|]. simpl in H.
        inversion H; subst d'; clear H; simpl.
        replace (idx - g + s - 1) with (idx - (g - s) - 1) by lia.
        replace (idx - g + g - 1) with (idx - 1) by lia. auto.
      * inversion H; subst; simpl; auto.
  - inversion H; subst; simpl; subst; auto.
Qed.

(** saving succeeds when the diagnostic's own save does *)
Lemma save_one_total proc sigs idx g last (d : diag) :
  (forall pl p v ab, exists pl', dsave pl p v ab = Ok pl') ->
  exists d', save_one dsave proc sigs idx g last d = Ok d'.
Proof.
  intros HS. unfold save_one. destruct d as [[rest st en sv num] ix pl]; simpl.
  destruct st as [s|], en as [e|]; eauto.
  destruct (Z.leb_spec e g).
  - destruct (HS pl proc (view sigs (idx - (g - e) - 1 - (e - s)) (idx - (g - e) - 1)) (s, e)) as [pl' ->]; simpl.
    unfold ivc_progress; simpl. rewrite Z.leb_refl, Z.eqb_refl; simpl.
    destruct (iv_next rest) as [[? ?] ?]; simpl; eauto.
  - destruct (last && (s <? g)); eauto.
    destruct (HS pl proc (view sigs (idx - (g - s) - 1) (idx - 1)) (s, g)) as [pl' ->]; simpl.
    unfold ivc_progress; simpl. destruct (Z.leb_spec g e); [|lia]. destruct (Z.eqb_spec g e); [lia|]. simpl; eauto.
Qed.

(* ---------------------------------------------------------------- exports *)
Notation acct := (dict diag * list (string * Z * Out))%type.

(** one diagnostic's exports between two states of the logger *)
Definition lane (nm : string) (a0 a : acct) : Prop :=
  match dget (fst a0) nm, dget (fst a) nm with
  | Some d0, Some d =>
    d_iv d = d_iv d0 /\ d_pl d = d_pl d0 /\ ix_wf (d_ix d) /\
    exists es os, ix_list (d_ix d0) = es ++ ix_list (d_ix d) /\
      Forall (fun e => e <= iv_saved (d_iv d0)) es /\
      exports_of nm (snd a) = exports_of nm (snd a0) ++ combine es os /\
      Forall2 (fun e o => dout (d_pl d0) e = Ok o) es os
  | None, None => exports_of nm (snd a) = exports_of nm (snd a0)
  | _, _ => False
  end.

Lemma exports_of_app nm (x y : list (string * Z * Out)) : exports_of nm (x ++ y) = exports_of nm x ++ exports_of nm y.
Proof. unfold exports_of. rewrite filter_app, map_app. auto. Qed.

Lemma lane_refl nm a : (forall d, dget (fst a) nm = Some d -> ix_wf (d_ix d)) -> lane nm a a.
Proof.
  intros HW; unfold lane. destruct (dget (fst a) nm) eqn:Ed; auto. repeat split; auto.
  exists [], []. simpl. rewrite app_nil_r. auto.
Qed.
Lemma Forall2_len {A B} (R : A -> B -> Prop) l1 l2 : Forall2 R l1 l2 -> length l1 = length l2.
Proof. induction 1; simpl; congruence. Qed.
Lemma combine_app {A B} (l1 l2 : list A) (r1 r2 : list B) : length l1 = length r1 ->
  combine (l1 ++ l2) (r1 ++ r2) = combine l1 r1 ++ combine l2 r2.
Proof. revert r1; induction l1; intros [|] H; simpl in *; auto; try discriminate. f_equal; auto. Qed.
Lemma lane_trans nm a b c : lane nm a b -> lane nm b c -> lane nm a c.
Proof.
  unfold lane. destruct (dget (fst a) nm), (dget (fst b) nm), (dget (fst c) nm); try tauto; [|congruence].
  intros (E1 & E2 & W1 & es1 & os1 & H1 & H2 & H3 & H4) (E3 & E4 & W2 & es2 & os2 & H5 & H6 & H7 & H8).
  repeat split; try congruence. exists (es1 ++ es2), (os1 ++ os2).
  rewrite E1, E2 in *. split; [rewrite H1, H5, app_assoc; auto|]. split; [apply Forall_app; auto|].
  split; [rewrite H7, H3, <- app_assoc, combine_app; auto; apply Forall2_len in H4; auto|].
  apply Forall2_app; auto.
Qed.

Definition is_due (diags : dict diag) (nm : string) : Prop :=
  exists d, dget diags nm = Some d /\ ext_leb (ix_next (d_ix d)) (iv_saved (d_iv d)) = true.

Lemma export_single_lane acc name acc' :
  is_due (fst acc) name -> export_single_diag dout acc name = Ok acc' ->
  (forall nm, (forall d, dget (fst acc) nm = Some d -> ix_wf (d_ix d)) -> lane nm acc acc') /\
  dkeys (fst acc') = dkeys (fst acc) /\
  (forall nm, nm <> name -> dget (fst acc') nm = dget (fst acc) nm).
Proof.
  destruct acc as [dg out]. intros (d & Ed & Hd) H. simpl in Ed. unfold export_single_diag in H.
  unfold dgetE in H. rewrite Ed in H. simpl in H.
  destruct (ix_next (d_ix d)) as [e|] eqn:En; [|discriminate].
  apply bind_ok in H as (o & Eo & H). inversion H; subst acc'; clear H; simpl.
  split; [|split].
  - intros nm HW. unfold lane; simpl. rewrite dget_dset. destruct (String.eqb_spec nm name).
    + subst. rewrite Ed. simpl. repeat split; auto.
      * unfold ixc_progress. destruct (ix_rest (d_ix d)); simpl; unfold ix_wf; simpl; auto.
      * exists [e], [o]. rewrite ixc_progress_list. unfold ix_list; rewrite En. simpl.
        simpl in Hd. apply Z.leb_le in Hd. repeat split; auto.
        rewrite exports_of_app. f_equal. unfold exports_of; simpl. rewrite String.eqb_refl. auto.
    + destruct (dget dg nm) eqn:E2.
      * repeat split; auto. exists [], []; simpl. rewrite app_nil_r. repeat split; auto.
        rewrite exports_of_app. unfold exports_of at 2; simpl.
        destruct (String.eqb_spec name nm); [congruence|]. simpl. rewrite app_nil_r; auto.
      * rewrite exports_of_app. unfold exports_of at 2; simpl.
        destruct (String.eqb_spec name nm); [congruence|]. simpl. rewrite app_nil_r; auto.
  - apply dkeys_dset_mem with d; auto.
  - intros nm Hn. apply dget_dset_other; auto.
Qed.

Definition all_ix_wf (dg : dict diag) : Prop := forall nm d, dget dg nm = Some d -> ix_wf (d_ix d).

Lemma lane_wf acc acc' : (forall nm, lane nm acc acc') -> all_ix_wf (fst acc').
Proof.
  intros H nm d Ed. specialize (H nm). unfold lane in H. rewrite Ed in H.
  destruct (dget (fst acc) nm); tauto.
Qed.

Lemma export_round_lane names : forall acc acc', NoDup names -> all_ix_wf (fst acc) ->
  (forall nm, In nm names -> is_due (fst acc) nm) ->
  foldM (export_single_diag dout) acc names = Ok acc' ->
  (forall nm, lane nm acc acc') /\ dkeys (fst acc') = dkeys (fst acc).
Proof.
  induction names as [|n names IH]; intros acc acc' ND HW HD H.
  - inversion H; subst. split; auto. intros; apply lane_refl; auto. apply HW.
  - cbn [foldM] in H. apply bind_ok in H as (a & E1 & H). inversion ND; subst.
    apply export_single_lane in E1 as (HL & HK & HO); [|apply HD; simpl; auto].
    assert (HL' : forall nm, lane nm acc a) by (intros; apply HL; apply HW).
    destruct (IH a acc') as [HL2 HK2]; auto.
    + eapply lane_wf; eauto.
    + intros nm Hn. destruct (HD nm) as (d & Ed & Hd); [simpl; auto|]. exists d; split; auto.
      rewrite HO; auto. congruence.
    + split; [intros; eapply lane_trans; eauto|congruence].
Qed.

Lemma export_this_idx_due dg nm : NoDup (dkeys dg) -> In nm (export_this_idx dg) <-> is_due dg nm.
Proof.
  intros ND. unfold export_this_idx, is_due. rewrite in_map_iff. split.
  - intros ([k d] & <- & HI). apply filter_In in HI as [HI Hd]. simpl in *.
    exists d; split; auto. apply In_dget; auto.
  - intros (d & Ed & Hd). exists (nm, d). split; auto. apply filter_In. split; auto. apply dget_In; auto.
Qed.
Lemma export_this_idx_NoDup dg : NoDup (dkeys dg) -> NoDup (export_this_idx (D:=D) dg).
Proof.
  unfold export_this_idx, dkeys. induction dg as [|[k d] r IH]; simpl; intros ND; [constructor|].
  inversion ND; subst. destruct (ext_leb _ _); simpl; auto. constructor; auto.
  intros HI. apply H1. apply in_map_iff in HI as (x & Ex & HI). apply filter_In in HI as [HI _].
  rewrite <- Ex. apply in_map; auto.
Qed.

(** no diagnostic is due *)
Definition settled (dg : dict diag) : Prop :=
  forall nm d, dget dg nm = Some d ->
    match ix_list (d_ix d) with e :: _ => iv_saved (d_iv d) < e | [] => True end.

Lemma dispatch_loop_lane fuel : forall acc acc', NoDup (dkeys (fst acc)) -> all_ix_wf (fst acc) ->
  dispatch_loop dout fuel acc = Ok acc' ->
  (forall nm, lane nm acc acc') /\ dkeys (fst acc') = dkeys (fst acc) /\ settled (fst acc').
Proof.
  induction fuel as [|k IH]; intros acc acc' ND HW H; cbn [dispatch_loop] in H;
    destruct (export_this_idx (fst acc)) as [|n0 ns] eqn:En; try discriminate.
  1,2: inversion H; subst; split; [intros; apply lane_refl; apply HW|]; split; auto;
    intros nm d Ed; unfold ix_list; destruct (ix_next (d_ix d)) as [e|] eqn:Ex; auto;
    destruct (Z.leb_spec e (iv_saved (d_iv d))); auto; exfalso;
    assert (HI : In nm (export_this_idx (fst acc'))) by
      (apply export_this_idx_due; auto; exists d; split; auto; rewrite Ex; simpl; apply Z.leb_le; auto);
    rewrite En in HI; destruct HI.
  apply bind_ok in H as (a & E1 & H). rewrite <- En in E1.
  apply export_round_lane in E1 as [HL HK]; auto.
  - destruct (IH a acc') as (HL2 & HK2 & HS); auto.
    + unfold dkeys in *; rewrite HK; auto.
    + eapply lane_wf; eauto.
    + split; [intros; eapply lane_trans; eauto|]. split; [congruence|auto].
  - apply export_this_idx_NoDup; auto.
  - intros nm Hn. apply export_this_idx_due; auto.
Qed.

(** what dispatch does to one diagnostic *)
Lemma dispatch_lane po acc acc' : NoDup (dkeys (fst acc)) -> all_ix_wf (fst acc) ->
  dispatch dout po acc = Ok acc' ->
  (forall nm, lane nm acc acc') /\ dkeys (fst acc') = dkeys (fst acc) /\
  (po <> "none"%string -> settled (fst acc')) /\ (po = "none"%string -> acc' = acc).
Proof.
  unfold dispatch. intros ND HW H. destruct (String.eqb_spec po "none"); simpl in H.
  - inversion H; subst acc'. repeat split; auto; try congruence. intros; apply lane_refl; apply HW.
  - apply dispatch_loop_lane in H as (H1 & H2 & H3); auto. repeat split; auto; congruence.
Qed.

(** the export loop needs no more iterations than there are pending exports *)
Lemma dispatch_fuel_dset dg nm d d' : dget dg nm = Some d -> (pending (d_ix d') < pending (d_ix d))%nat ->
  (dispatch_fuel (dset dg nm d') < dispatch_fuel (D:=D) dg)%nat.
Proof.
  induction dg as [|[k x] r IH]; simpl; [discriminate|]. destruct (String.eqb_spec nm k); simpl; intros H HP.
  - inversion H; subst. lia.
  - specialize (IH H HP). lia.
Qed.
Lemma export_single_fuel acc name : is_due (fst acc) name -> (forall p e, exists o, dout p e = Ok o) ->
  exists acc', export_single_diag dout acc name = Ok acc' /\
    (dispatch_fuel (fst acc') < dispatch_fuel (fst acc))%nat.
Proof.
  destruct acc as [dg out]. intros (d & Ed & Hd) HO. simpl in Ed. unfold export_single_diag, dgetE. rewrite Ed; simpl.
  destruct (ix_next (d_ix d)) as [e|] eqn:En; [|discriminate].
  destruct (HO (d_pl d) e) as [o ->]; simpl. eexists; split; [reflexivity|]. simpl.
  eapply dispatch_fuel_dset; eauto. simpl. unfold pending, ixc_progress. rewrite En.
  destruct (ix_rest (d_ix d)); simpl; lia.
Qed.
Lemma export_round_fuel names : forall acc, NoDup names -> all_ix_wf (fst acc) ->
  (forall nm, In nm names -> is_due (fst acc) nm) -> (forall p e, exists o, dout p e = Ok o) ->
  exists acc', foldM (export_single_diag dout) acc names = Ok acc' /\
    (dispatch_fuel (fst acc') + length names <= dispatch_fuel (fst acc))%nat.
Proof.
  induction names as [|n names IH]; intros acc ND HW HD HO.
  - exists acc; simpl; split; auto; lia.
  - destruct (@export_single_fuel acc n) as (a & E1 & E2); auto; [apply HD; simpl; auto|].
    pose proof E1 as E3. apply export_single_lane in E3 as (HL & HK & HOt); [|apply HD; simpl; auto].
    inversion ND; subst. destruct (IH a) as (a' & E4 & E5); auto.
    + eapply lane_wf. intros; apply HL; apply HW.
    + intros nm Hn. destruct (HD nm) as (d & Ed & Hd); [simpl; auto|]. exists d; split; auto.
      rewrite HOt; auto. congruence.
    + exists a'. cbn [foldM]. rewrite E1; simpl. split; auto. lia.
Qed.
Lemma dispatch_total po acc : NoDup (dkeys (fst acc)) -> all_ix_wf (fst acc) ->
  (forall p e, exists o, dout p e = Ok o) -> exists acc', dispatch dout po acc = Ok acc'.
Proof.
  intros ND HW HO. unfold dispatch. destruct (negb _); eauto.
  assert (HF : (dispatch_fuel (fst acc) <= dispatch_fuel (fst acc))%nat) by lia.
  revert HF. generalize (dispatch_fuel (fst acc)) at 2 3 as fuel. intros fuel. revert acc ND HW.
  induction fuel as [|k IH]; intros acc ND HW HF; cbn [dispatch_loop];
    destruct (export_this_idx (fst acc)) as [|n0 ns] eqn:En; eauto.
  - assert (HD : is_due (fst acc) n0) by (apply export_this_idx_due; auto; rewrite En; simpl; auto).
    destruct (@export_single_fuel acc n0) as (a & _ & HL); auto. lia.
  - rewrite <- En.
    destruct (@export_round_fuel (export_this_idx (fst acc)) acc) as (a & E1 & E2); auto.
    + apply export_this_idx_NoDup; auto.
    + intros; apply export_this_idx_due; auto.
    + rewrite E1; simpl. apply export_round_lane in E1 as [HL HK]; auto.
      * apply IH; [rewrite HK; auto|eapply lane_wf; eauto|rewrite En in E2; simpl in E2; lia].
      * apply export_this_idx_NoDup; auto.
      * intros; apply export_this_idx_due; auto.
Qed.
End Lane.

(* ---------------------------------------------------------------- the sequence of saves of one diagnostic *)
(** saves made in steps 0 .. n-1, and the intervals that remain *)
Fixpoint tile_run (last : Z -> bool) (l : list (Z * Z)) (n : nat) : list (Z * Z) * list (Z * Z) :=
  match n with
  | O => ([], l)
  | S k =>
    let '(ts, r) := tile_run last l k in
    match tile_step r (Z.of_nat k) (last (Z.of_nat k)) with
    | (Some t, r') => (ts ++ [t], r')
    | (None, r') => (ts, r')
    end
  end.

Lemma times_app a b : times (a ++ b) = times a ++ times b.
Proof. unfold times. apply flat_map_app. Qed.
Lemma ivs_ok_weaken lo lo' l : ivs_ok lo l -> lo' <= lo -> ivs_ok lo' l.
Proof. destruct l as [|[s e] r]; simpl; auto. intros; intuition lia. Qed.

Record tiles_ok (last : Z -> bool) (l : list (Z * Z)) (n : nat) (ts r : list (Z * Z)) : Prop := {
  to_times : times ts ++ times r = times l;
  to_tile : Forall (fun t => inside l t /\ fst t < snd t /\ 0 <= snd t < Z.of_nat n /\
                             (In (snd t) (map snd l) \/ last (snd t) = true)) ts;
  to_rest : Forall (fun iv => inside l iv /\ Z.of_nat n <= snd iv) r;
  to_rest_ok : exists lo, ivs_ok lo r;
  to_rest_ends : forall iv, In iv r -> In (snd iv) (map snd l)
}.

Lemma ivs_ok_ends lo l : ivs_ok lo l -> Forall (fun iv => lo < snd iv) l.
Proof.
  revert lo; induction l as [|[s e] r IH]; simpl; intros lo H; constructor; simpl; try lia.
  eapply Forall_impl; [|apply IH; apply H]. simpl; intros; lia.
Qed.

Lemma tile_run_ok last lo l n : ivs_ok lo l -> Forall (fun iv => 0 <= snd iv) l ->
  let '(ts, r) := tile_run last l n in tiles_ok last l n ts r.
Proof.
  intros HO H0. induction n as [|n IH].
  - cbn [tile_run]. constructor; simpl; auto.
    + rewrite Forall_forall in *. intros iv Hi. split; [exists iv; repeat split; auto; lia|apply H0; auto].
    + eauto.
    + intros; apply in_map; auto.
  - cbn [tile_run]. destruct (tile_run last l n) as [ts r]. destruct IH as [T1 T2 T3 [lo' T4] T5].
    assert (Hmono : Forall (fun t => inside l t /\ fst t < snd t /\ 0 <= snd t < Z.of_nat (S n) /\
                     (In (snd t) (map snd l) \/ last (snd t) = true)) ts).
    { eapply Forall_impl; [|exact T2]. simpl; intros; intuition lia. }
    unfold tile_step. destruct r as [|[s e] r'].
    { constructor; simpl; eauto. }
    pose proof (Forall_inv T3) as [HIn HEnd]. simpl in HEnd, HIn. cbn [ivs_ok] in T4.
    destruct T4 as (L1 & L2 & L3).
    pose proof (@ivs_ok_ends _ _ L3) as LE.
    destruct (Z.leb_spec e (Z.of_nat n)).
    + assert (e = Z.of_nat n) by lia. constructor; simpl.
      * rewrite times_app, <- app_assoc. rewrite <- T1. unfold times at 2 5. simpl. rewrite app_nil_r; auto.
      * apply Forall_app; split; auto. constructor; auto. simpl. split; auto. split; [lia|]. split; [lia|].
        left. apply (T5 (s, e)); simpl; auto.
      * apply Forall_inv_tail in T3. rewrite Forall_forall in *. intros iv Hi.
        split; [apply T3; auto|]. specialize (LE _ Hi). lia.
      * eauto.
      * intros; apply T5; simpl; auto.
    + destruct (last (Z.of_nat n) && (s <? Z.of_nat n)) eqn:El.
      * apply andb_true_iff in El as [El1 El2]. apply Z.ltb_lt in El2.
        assert (Hs : times [(s, Z.of_nat n)] ++ times [(Z.of_nat n, e)] = times [(s, e)]).
        { unfold times; simpl. rewrite !app_nil_r. symmetry. apply zrange_app; lia. }
        constructor.
        -- rewrite times_app, <- app_assoc. change (times ((Z.of_nat n, e) :: r')) with (times ([(Z.of_nat n, e)] ++ r')).
           rewrite times_app. rewrite (app_assoc (times [(s, Z.of_nat n)])). rewrite Hs, <- times_app. exact T1.
        -- apply Forall_app; split; auto. constructor; auto. simpl. split; [|split; [lia|split; [lia|right; auto]]].
           destruct HIn as (iv & Hi & A & B). exists iv; simpl in *; repeat split; auto; lia.
        -- constructor; simpl.
           ++ split; [|lia]. destruct HIn as (iv & Hi & A & B). exists iv; simpl in *; repeat split; auto; lia.
           ++ apply Forall_inv_tail in T3. rewrite Forall_forall in *. intros iv Hi.
              split; [apply T3; auto|]. specialize (LE _ Hi). lia.
        -- exists (Z.of_nat n). simpl. repeat split; auto; lia.
        -- intros iv [<-|Hi]; simpl; [apply (T5 (s, e)); simpl; auto|apply T5; simpl; auto].
      * constructor; auto.
        -- constructor; simpl; [split; auto; lia|]. apply Forall_inv_tail in T3.
           rewrite Forall_forall in *. intros iv Hi. split; [apply T3; auto|]. specialize (LE _ Hi). lia.
        -- exists lo'. simpl; auto.
Qed.

(** every save made in step n ends at time n *)
Lemma tile_step_end last lo l n : ivs_ok lo l -> Forall (fun iv => 0 <= snd iv) l ->
  let '(ts, r) := tile_run last l n in
  match fst (tile_step r (Z.of_nat n) (last (Z.of_nat n))) with
  | Some t => snd t = Z.of_nat n
  | None => True
  end.
Proof.
  intros HO H0. pose proof (@tile_run_ok last _ _ n HO H0) as HT. destruct (tile_run last l n) as [ts r].
  destruct HT as [T1 T2 T3 T4 T5]. unfold tile_step. destruct r as [|[s e] r']; simpl; auto.
  apply Forall_inv in T3 as [_ T3]. simpl in T3.
  destruct (Z.leb_spec e (Z.of_nat n)); simpl; [lia|]. destruct (_ && _); simpl; auto.
Qed.

(** saves and remaining intervals do not start before [lo] *)
Lemma tile_run_starts last lo l n : ivs_ok lo l ->
  let '(ts, r) := tile_run last l n in
  Forall (fun t => lo <= fst t) ts /\ Forall (fun t => lo <= fst t) r.
Proof.
  intros HO. assert (HL : Forall (fun t => lo <= fst t) l).
  { revert lo HO; induction l as [|[s e] r IH]; simpl; intros; constructor; simpl; try lia.
    eapply Forall_impl; [|apply IH; apply HO]. simpl; intros; lia. }
  induction n as [|n IH]; cbn [tile_run]; auto.
  destruct (tile_run last l n) as [ts r]. destruct IH as [I1 I2].
  unfold tile_step. destruct r as [|[s e] r']; auto. inversion I2; subst; simpl in *.
  destruct (Z.leb_spec e (Z.of_nat n)).
  - split; auto. apply Forall_app; auto.
  - destruct (last (Z.of_nat n)), (Z.ltb_spec s (Z.of_nat n)); simpl; auto.
    split; [apply Forall_app; auto|constructor; simpl; auto; lia].
Qed.
