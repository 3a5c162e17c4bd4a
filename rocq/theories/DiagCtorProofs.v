(** Save intervals and export indices of constructed diagnostics. *)
Require Import Verif.PyBase Verif.PyLemmas Verif.ConfigModel Verif.LoggerModel Verif.LoggerSpec Verif.LoggerProofs Verif.DiagCtorModel Verif.DiagSpec.
Set Implicit Arguments.
Arguments Z.add : simpl never.
Arguments Z.sub : simpl never.
Arguments Z.mul : simpl never.
Ltac Zify.zify_post_hook ::= Z.div_mod_to_equations.

Lemma combine_map {A B C} (f : A -> B) (g : A -> C) l : combine (map f l) (map g l) = map (fun x => (f x, g x)) l.
Proof. induction l; simpl; congruence. Qed.
Lemma step_map a b s n : (b - a + s - 1) / s = n -> zrange_step a b s = map (fun k => a + s * k) (zrange 0 n).
Proof.
  intros <-. unfold zrange_step, zrange. rewrite map_map. replace ((b - a + s - 1) / s - 0) with ((b - a + s - 1) / s) by lia.
  apply map_ext. intros. lia.
Qed.

Lemma multiples_step f tot : 1 <= f -> zrange_step f (tot + 1) f = multiples f tot.
Proof.
  intros Hf. rewrite step_map with (n := tot / f) by (f_equal; lia). unfold multiples.
  replace (zrange 1 (tot / f + 1)) with (map (fun k => 1 + k) (zrange 0 (tot / f))).
  - rewrite map_map. apply map_ext. intros; lia.
  - unfold zrange. rewrite map_map. replace (tot / f + 1 - 1) with (tot / f - 0) by lia. apply map_ext. intros; lia.
Qed.
Lemma ceil_div a b : 1 <= b -> - (- a / b) = (a + b - 1) / b.
Proof. intros Hb. apply (Z.div_unique_pos _ _ _ (a + b - 1 - b * - (- a / b))); [|lia]. pose proof (Z.div_mod (- a) b ltac:(lia)). pose proof (Z.mod_pos_bound (- a) b ltac:(lia)). lia. Qed.
Lemma frequency_ivs f tot c : 1 <= f -> ivc_from_frequency f tot false = Ok c ->
  iv_list c = unit_ivs (multiples f tot) /\ iv_saved c = 0 /\ iv_wf c /\ iv_num c = (tot + f - 1) / f.
Proof.
  intros Hf H. unfold ivc_from_frequency in H. destruct (Z.eqb_spec f 0); [lia|]. destruct (Z.ltb_spec f 0); [lia|]. cbv zeta in H. replace (- (- tot / f)) with ((tot + f - 1) / f) in H by (symmetry; apply ceil_div; lia).
  inversion H; subst; clear H. rewrite ivc_make_list, ivc_make_saved. split; [|split; auto; split; [apply ivc_make_wf|]].
  - rewrite multiples_step by auto.
    assert (zrange_step (f - 1) tot f = map (fun e => e - 1) (multiples f tot)) as ->.
    { rewrite <- multiples_step by auto. rewrite !step_map with (n := tot / f) by (f_equal; lia). rewrite map_map. apply map_ext. intros; lia. }
    unfold unit_ivs. rewrite <- (map_id (multiples f tot)) at 2. rewrite combine_map. auto.
  - destruct (combine _ _) as [|[? ?] ?]; auto.
Qed.
Lemma frequency_ixs f tot c : 1 <= f -> ixc_of_frequency f tot = Ok c -> ix_list c = multiples f tot /\ ix_wf c.
Proof.
  intros Hf H. unfold ixc_of_frequency in H. destruct (Z.eqb_spec f 0); [lia|]. destruct (Z.ltb_spec f 0); [lia|].
  inversion H; subst. rewrite ixc_make_list, multiples_step by auto. split; auto. destruct (multiples f tot); unfold ix_wf; simpl; auto.
Qed.
Lemma In_multiples f tot e : 1 <= f -> In e (multiples f tot) <-> exists k, 1 <= k /\ e = k * f /\ e <= tot.
Proof.
  intros Hf. unfold multiples. rewrite in_map_iff. split.
  - intros (k & <- & Hk). apply In_zrange in Hk. exists k. nia.
  - intros (k & Hk & -> & Ht). exists k. split; auto. apply In_zrange. split; auto. assert (k <= tot / f) by (apply Z.div_le_lower_bound; lia). lia.
Qed.

Lemma unit_ivs_ok lo l : increasing_from lo l -> ivs_ok lo (unit_ivs l).
Proof. revert lo; induction l as [|e l IH]; simpl; intros lo H; auto. destruct H. split; [lia|]. split; [lia|auto]. Qed.
Lemma increasing_from_nondec lo l : increasing_from lo l -> nondecreasing l.
Proof. revert lo; induction l as [|e [|e' l] IH]; simpl; intros lo H; auto. destruct H as (A & B & C). split; [lia|]. apply (IH e). simpl; auto. Qed.
Lemma increasing_from_lower lo l : increasing_from lo l -> Forall (fun e => lo < e) l.
Proof.
  revert lo; induction l as [|e l IH]; simpl; intros lo H; constructor; [tauto|]. destruct H. eapply Forall_impl; [|apply IH; eauto]. simpl; intros; lia.
Qed.
Lemma increasing_mults f : 1 <= f -> forall n a b, n = Z.to_nat (b - a) -> increasing_from ((a - 1) * f) (map (fun k => k * f) (zrange a b)).
Proof.
  intros Hf. induction n as [|n IH]; intros a b Hn; [rewrite zrange_empty by lia; simpl; auto|].
  rewrite zrange_cons by lia. simpl. split; [nia|]. specialize (IH (a + 1) b). replace (a + 1 - 1) with a in IH by lia. apply IH. lia.
Qed.
Lemma multiples_increasing f tot : 1 <= f -> increasing_from 0 (multiples f tot).
Proof. intros Hf. unfold multiples. pose proof (@increasing_mults f Hf _ 1 (tot / f + 1) eq_refl) as H. replace ((1 - 1) * f) with 0 in H by lia. auto. Qed.
