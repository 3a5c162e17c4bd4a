(** Properties of block helpers and processor names: C31, C32, C33. *)
Require Import Verif.PyBase Verif.PyLemmas Verif.PyStr Verif.PyStrLemmas Verif.UtilModel.
Set Implicit Arguments.
Arguments Z.add : simpl never.
Arguments Z.sub : simpl never.
Arguments Z.mul : simpl never.
Local Open Scope string_scope.
Local Open Scope list_scope.
Local Open Scope Z_scope.
Ltac Zify.zify_post_hook ::= Z.div_mod_to_equations.

(* ------------------------------------------------------------------ C31 *)
Definition total (l : list Z) : Z := fold_right Z.add 0 l.
(** [l] splits num samples from position start on, in blocks of bs: positive lengths that add up to num; no part
    crosses a multiple of bs; every part but the last ends at a multiple of bs *)
Record splits (start bs num : Z) (l : list Z) : Prop := {
  sp_pos : Forall (fun x => 0 < x) l;
  sp_sum : total l = num;
  sp_in : forall pre x post, l = pre ++ x :: post -> exists q, q * bs <= start + total pre /\ start + total pre + x <= (q + 1) * bs;
  sp_end : forall pre x post, l = pre ++ x :: post -> post <> [] -> exists q, start + total pre + x = q * bs }.
Lemma total_app a b : total (a ++ b) = total a + total b.
Proof. unfold total. rewrite fold_right_app. induction a as [|x a IH]; simpl; [lia|]. rewrite IH. lia. Qed.

Lemma loop_splits full num : 1 <= full -> forall k cnt left sizes, cnt <= num -> 1 <= left <= full -> num - cnt < Z.of_nat k ->
  exists tail, block_loop k num cnt left full sizes = Ok (sizes ++ tail) /\ splits (full - left) full (num - cnt) tail.
Proof.
  intros Hf. induction k as [|k IH]; intros cnt left sizes Hc Hl Hk; [lia|]. cbn [block_loop]. destruct (Z.ltb_spec cnt num).
  - set (x := Z.min (num - cnt) left). assert (Hx : 1 <= x) by lia.
    assert (K : exists tail, block_loop k num (cnt + x) (if left - x =? 0 then full else left - x) full (sizes ++ [x]) = Ok ((sizes ++ [x]) ++ tail) /\
       splits (full - (if left - x =? 0 then full else left - x)) full (num - (cnt + x)) tail).
    { apply IH; [lia| |lia]. destruct (Z.eqb_spec (left - x) 0); lia. }
    destruct K as (tail & E & S). exists (x :: tail). rewrite E, <- app_assoc. split; auto.
    assert (Hsh : exists d, full - left + x = (full - (if left - x =? 0 then full else left - x)) + d * full).
    { destruct (Z.eqb_spec (left - x) 0); [exists 1|exists 0]; lia. }
    destruct Hsh as (d & Hsh). split.
    + constructor; [lia|apply S].
    + change (total (x :: tail)) with (x + total tail). rewrite (sp_sum S). lia.
    + intros pre y post Hp. destruct pre as [|z pre]; injection Hp as Hz Hp; rewrite <- ?Hz; clear Hz; subst tail.
      * exists 0. change (total []) with 0. lia.
      * destruct (sp_in S pre y post eq_refl) as (q & Q1 & Q2). exists (q + d). change (total (x :: pre)) with (x + total pre). lia.
    + intros pre y post Hp Hne. destruct pre as [|z pre]; injection Hp as Hz Hp; rewrite <- ?Hz; clear Hz; subst tail.
      * exists 1. change (total []) with 0. enough (x = left) by lia. destruct (Z.eq_dec x left); auto.
        assert (x = num - cnt) by lia. pose proof (sp_sum S) as T. destruct post as [|p post]; [congruence|]. pose proof (sp_pos S) as P. inversion P as [|? ? P1 P2]; subst. change (total (p :: post)) with (p + total post) in T.
        assert (0 <= total post). { clear - P2. induction P2; [simpl; lia|]. change (0 <= x + total l). lia. } lia.
      * destruct (@sp_end _ _ _ _ S pre y post eq_refl Hne) as (q & Q). exists (q + d). change (total (x :: pre)) with (x + total pre). lia.
  - exists []. rewrite app_nil_r. split; auto. assert (cnt = num) as -> by lia. split; [constructor|simpl; lia|intros pre x post Q; destruct pre; discriminate Q|intros pre x post Q; destruct pre; discriminate Q].
Qed.
(** C31 *)
Theorem C31_blocks num start bs : 0 <= num -> 1 <= bs -> 0 <= start < bs -> exists l, calc_block_sizes num start bs = Ok l /\ splits start bs num l.
Proof.
  intros Hn Hb Hs. unfold calc_block_sizes, block_fuel. destruct (@loop_splits bs num Hb (Z.to_nat (Z.max 0 num + Z.max 0 (- (bs - start)) + 2)) 0 (bs - start) []) as (l & E & S); [lia|lia|lia|].
  exists l. split; auto. replace (bs - (bs - start)) with start in S by lia. replace (num - 0) with num in S by lia. auto.
Qed.
(** all parts but the first and the last are whole blocks *)
Theorem C31_middle num start bs l pre x post : 1 <= bs -> splits start bs num l -> l = pre ++ x :: post -> pre <> [] -> post <> [] -> x = bs.
Proof.
  intros Hb S Hl H1 H2. destruct (@sp_end _ _ _ _ S _ _ _ Hl H2) as (q2 & Q2). destruct (sp_in S _ _ _ Hl) as (q & Q3 & Q4).
  destruct (exists_last H1) as (pre' & y & ->). destruct (@sp_end _ _ _ _ S pre' y (x :: post)) as (q1 & Q1); [rewrite Hl, <- app_assoc; auto|discriminate|].
  rewrite total_app in Q2, Q3, Q4. change (total [y]) with (y + 0) in *.
  assert (Hx : 0 < x). { pose proof (sp_pos S) as P. rewrite Hl in P. apply Forall_app in P as [_ P]. inversion P; auto. }
  assert (q1 < q2) by nia. assert (q <= q1 /\ q2 <= q + 1) by nia. assert (q2 = q1 + 1) by lia. subst q2. lia.
Qed.
(** the split is determined by these rules *)
Theorem C31_unique num start bs l l' : 1 <= bs -> splits start bs num l -> splits start bs num l' -> l = l'.
Proof.
  intros Hb. revert start num l'. induction l as [|x l IH]; intros start num l' S S'.
  - destruct l' as [|y l']; auto. pose proof (sp_sum S) as T. pose proof (sp_sum S') as T'. change (total []) with 0 in T. change (total (y :: l')) with (y + total l') in T'. pose proof (sp_pos S') as P. inversion P as [|? ? P1 P2]; subst.
    assert (0 <= total l'). { clear - P2. induction P2; [simpl; lia|]. change (0 <= x + total l). lia. } lia.
  - assert (N : forall l, Forall (fun x => 0 < x) l -> 0 <= total l /\ (l <> [] -> 0 < total l)).
    { clear. induction 1 as [|x l H _ [I1 I2]]; [split; [simpl; lia|congruence]|]. change (total (x :: l)) with (x + total l). split; [lia|intros _; lia]. }
    destruct l' as [|y l'].
    + pose proof (sp_sum S) as T. pose proof (sp_sum S') as T'. change (total []) with 0 in T'. pose proof (N _ (sp_pos S)) as [_ K]. rewrite T in K. specialize (K ltac:(discriminate)). lia.
    + pose proof (sp_sum S) as T. pose proof (sp_sum S') as T'. change (total (x :: l)) with (x + total l) in T. change (total (y :: l')) with (y + total l') in T'.
      pose proof (sp_pos S) as P. pose proof (sp_pos S') as P'. inversion P as [|? ? P1 P2]; subst. inversion P' as [|? ? P1' P2']; subst.
      destruct (sp_in S [] x l eq_refl) as (q & A1 & A2). destruct (sp_in S' [] y l' eq_refl) as (q' & B1 & B2). change (total []) with 0 in *.
      destruct (N _ P2) as [N1 N2]. destruct (N _ P2') as [N1' N2'].
      assert (x = y) as ->.
      { destruct l as [|x2 l2], l' as [|y2 l2'].
        - change (total []) with 0 in *. lia.
        - exfalso. destruct (@sp_end _ _ _ _ S' [] y (y2 :: l2') eq_refl ltac:(discriminate)) as (r & R). change (total []) with 0 in *. specialize (N2' ltac:(discriminate)). assert (q < r) by nia. assert (r < q + 1) by nia. lia.
        - exfalso. destruct (@sp_end _ _ _ _ S [] x (x2 :: l2) eq_refl ltac:(discriminate)) as (r & R). change (total []) with 0 in *. specialize (N2 ltac:(discriminate)). assert (q' < r) by nia. assert (r < q' + 1) by nia. lia.
        - destruct (@sp_end _ _ _ _ S' [] y (y2 :: l2') eq_refl ltac:(discriminate)) as (r & R). destruct (@sp_end _ _ _ _ S [] x (x2 :: l2) eq_refl ltac:(discriminate)) as (r' & R'). change (total []) with 0 in *.
          assert (q < r' <= q + 1) by nia. assert (q' < r <= q' + 1) by nia. assert (q < r) by nia. assert (q' < r') by nia. assert (r = r') by lia. subst. lia. }
      f_equal. apply (IH (start + y) (y + total l - y)).
      * split; [auto|lia| |].
        -- intros pre z post ->. destruct (sp_in S (y :: pre) z post eq_refl) as (r & R). exists r. change (total (y :: pre)) with (y + total pre) in R. lia.
        -- intros pre z post -> Hn. destruct (@sp_end _ _ _ _ S (y :: pre) z post eq_refl Hn) as (r & R). exists r. change (total (y :: pre)) with (y + total pre) in R. lia.
      * split; [auto|lia| |].
        -- intros pre z post ->. destruct (sp_in S' (y :: pre) z post eq_refl) as (r & R). exists r. change (total (y :: pre)) with (y + total pre) in R. lia.
        -- intros pre z post -> Hn. destruct (@sp_end _ _ _ _ S' (y :: pre) z post eq_refl Hn) as (r & R). exists r. change (total (y :: pre)) with (y + total pre) in R. lia.
Qed.
(** the same for a buffer: positions count from the end of the buffer *)
Theorem C31_with_buffer num idx buffer chunk : 0 <= num -> 1 <= chunk -> buffer <= idx < buffer + chunk ->
  exists l, calc_block_sizes_with_buffer num idx buffer chunk = Ok l /\ splits (idx - buffer) chunk num l.
Proof.
  intros Hn Hb Hs. destruct (@C31_blocks num (idx - buffer) chunk) as (l & E & S); [lia|lia|lia|]. exists l. split; auto. rewrite <- E.
  unfold calc_block_sizes_with_buffer, calc_block_sizes. replace (chunk + buffer - idx) with (chunk - (idx - buffer)) by lia. auto.
Qed.
(** the loop ends for every start and number of samples, only the block size has to be positive *)
Theorem C31_terminates num start bs : 1 <= bs -> exists l, calc_block_sizes num start bs = Ok l.
Proof.
  intros Hb. unfold calc_block_sizes, block_fuel. set (k := Z.to_nat _). assert (Hk : Z.of_nat k = Z.max 0 num + Z.max 0 (- (bs - start)) + 2) by lia. clearbody k.
  destruct (Z.le_gt_cases num 0).
  { exists []. destruct k; [lia|]. cbn [block_loop]. destruct (Z.ltb_spec 0 num); auto; lia. }
  destruct (Z.le_gt_cases (bs - start) 0).
  - destruct k as [|k]; [lia|]. cbn [block_loop]. destruct (Z.ltb_spec 0 num); [|lia]. replace (Z.min (num - 0) (bs - start)) with (bs - start) by lia. rewrite Z.sub_diag. change (0 =? 0) with true. cbn iota.
    destruct (@loop_splits bs num Hb k (0 + (bs - start)) bs ([] ++ [bs - start])) as (l & E & S); [lia|lia|lia|]. eexists. apply E.
  - destruct (Z.le_gt_cases (bs - start) bs).
    + destruct (@loop_splits bs num Hb k 0 (bs - start) []) as (l & E & S); [lia|lia|lia|]. eexists. apply E.
    + destruct k as [|k]; [lia|]. cbn [block_loop]. destruct (Z.ltb_spec 0 num); [|lia]. set (x := Z.min (num - 0) (bs - start)).
      destruct (Z.eqb_spec (bs - start - x) 0).
      * destruct (@loop_splits bs num Hb k (0 + x) bs ([] ++ [x])) as (l & E & S); [lia|lia|lia|]. eexists. apply E.
      * assert (x = num) by lia. exists ([] ++ [x]). destruct k as [|k]; [lia|]. cbn [block_loop]. destruct (Z.ltb_spec (0 + x) num); auto; lia.
Qed.
Example C31_example : exists l, calc_block_sizes 10 3 4 = Ok l /\ splits 3 4 10 l /\ l = [1; 4; 4; 1] /\ calc_block_sizes_with_buffer 10 23 20 4 = Ok l.
Proof. destruct (@C31_blocks 10 3 4) as (l & E & S); [lia|lia|lia|]. exists l. repeat split; auto; try apply S; vm_compute in E; inversion E; reflexivity. Qed.
Print Assumptions C31_blocks.
Print Assumptions C31_middle.
Print Assumptions C31_unique.
Print Assumptions C31_with_buffer.
Print Assumptions C31_terminates.

(* ------------------------------------------------------------------ C32 *)
(** consecutive blocks of length bs from s to e *)
Inductive consecutive (bs : Z) : Z -> Z -> list (Z * Z) -> Prop :=
| cons_nil s : consecutive bs s s []
| cons_block s e l : consecutive bs (s + bs) e l -> consecutive bs s e ((s, s + bs) :: l).
(** C32: the blocks yielded are consecutive, of length bs, end at the given index, and no further block would fit before them;
    find_first_index_for_block returns where they start *)
Theorem C32_blocks earliest e bs : 1 <= bs -> earliest <= e ->
  exists s l, block_process_until_index earliest e bs = Ok l /\ find_first_index_for_block earliest e bs = Ok s /\ consecutive bs s e l /\ earliest <= s < earliest + bs.
Proof.
  intros Hb He. unfold block_process_until_index, find_first_index_for_block. destruct (Z.eqb_spec bs 0) as [|_]; [lia|].
  set (n := (e - earliest) / bs). eexists (e - bs * n), _. repeat split; [| |]; try (unfold n; nia).
  assert (Hn : 0 <= n) by (unfold n; nia). clearbody n. set (s := e - bs * n). assert (Hs : s + n * bs = e) by (unfold s; lia). clearbody s. unfold zrange. rewrite Z.sub_0_r.
  assert (K : forall k i, s + (i + Z.of_nat k) * bs = e -> consecutive bs (s + i * bs) e (map (fun i => (s + i * bs, s + (i + 1) * bs)) (map (fun j => i + Z.of_nat j) (seq 0 k)))).
  { induction k as [|k IH]; intros i Hi.
    - simpl. replace e with (s + i * bs) by lia. constructor.
    - cbn [seq map]. rewrite Z.add_0_r. replace (s + (i + 1) * bs) with (s + i * bs + bs) by lia. constructor. rewrite <- seq_shift, !map_map. replace (s + i * bs + bs) with (s + (i + 1) * bs) by lia.
      specialize (IH (i + 1)). rewrite map_map in IH. erewrite map_ext; [apply IH; lia|]. intros x. cbn beta. do 2 f_equal; lia. }
  specialize (K (Z.to_nat n) 0). replace (s + 0 * bs) with s in K by lia. apply K. lia.
Qed.
Theorem C32_zero earliest e : block_process_until_index earliest e 0 = Err ZeroDivisionError /\ find_first_index_for_block earliest e 0 = Err ZeroDivisionError.
Proof. split; reflexivity. Qed.
Example C32_example : block_process_until_index 3 20 5 = Ok [(5, 10); (10, 15); (15, 20)] /\ find_first_index_for_block 3 20 5 = Ok 5.
Proof. split; vm_compute; reflexivity. Qed.
Print Assumptions C32_blocks.
Print Assumptions C32_zero.

(* ------------------------------------------------------------------ C33 *)
(** the name itself, then the name with a space and a number *)
Definition suffixed (name : string) (m : nat) : string := match m with O => name | _ => (name ++ " " ++ py_str (Z.of_nat m))%string end.
Lemma suffixed_inj name a b : suffixed name a = suffixed name b -> a = b.
Proof.
  assert (N : forall m, suffixed name (S m) <> name). { intros m K. cbn [suffixed] in K. apply (f_equal slen) in K. rewrite !slen_app in K. pose proof (slen_nonneg (py_str (Z.of_nat (S m)))). change (slen " ") with 1 in K. lia. }
  destruct a, b; intros H; auto; [exfalso; apply (N b); auto|exfalso; apply (N a); auto|].
  cbn [suffixed] in H. apply sapp_inv_head in H. apply sapp_inv_head in H. apply py_str_inj in H; lia.
Qed.
Lemma rename_loop_spec names name : forall k j, (forall m, (m < j)%nat -> In (suffixed name m) names) -> (length names < k + j)%nat ->
  exists m, rename_loop k names name (suffixed name j) (Z.of_nat j + 1) = Ok (suffixed name m) /\ ~ In (suffixed name m) names /\ forall m', (m' < m)%nat -> In (suffixed name m') names.
Proof.
  induction k as [|k IH]; intros j Hj Hk.
  - exfalso. pose proof (@pigeon (suffixed name) names j (@suffixed_inj name) Hj). lia.
  - cbn [rename_loop]. destruct (smem (suffixed name j) names) eqn:Q.
    + apply smem_spec in Q. destruct (IH (S j)) as (m & E & K); [intros m Hm; destruct (Nat.eq_dec m j) as [->|]; [auto|apply Hj; lia]|lia|]. exists m. split; auto. rewrite <- E. 
      replace (Z.of_nat j + 1) with (Z.of_nat (S j)) by lia. reflexivity.
    + exists j. split; [auto|]. split; auto. intros K. apply smem_spec in K. congruence.
Qed.
(** C33: processor number k gets its own name if no earlier processor has got it, otherwise the first name with a number that no
    earlier one has got; so all names differ *)
Definition renamed (procs out : list string) : Prop :=
  length out = length procs /\
  forall k name, nth_error procs k = Some name ->
  exists m, nth_error out k = Some (suffixed name m) /\ ~ In (suffixed name m) (firstn k out) /\ forall m', (m' < m)%nat -> In (suffixed name m') (firstn k out).
Theorem C33_names procs : exists out, set_unique_processor_names procs = Ok out /\ renamed procs out /\ NoDup out.
Proof.
  unfold set_unique_processor_names. induction procs as [|name procs IH] using rev_ind.
  - exists []. repeat split; [|constructor]. intros k name H. destruct k; discriminate.
  - destruct IH as (out & E & [L R] & N). rewrite foldM_app, E. cbn [bind foldM].
    destruct (@rename_loop_spec out name (S (S (length out))) 0) as (m & K1 & K2 & K3); [intros; lia|lia|].
    change (suffixed name 0) with name in K1 at 1. change (Z.of_nat 0 + 1) with 1 in K1. rewrite K1. cbn [bind]. exists (out ++ [suffixed name m]). split; auto. split; [split|].
    + rewrite !app_length. simpl. lia.
    + intros k nm H. destruct (Nat.lt_ge_cases k (length procs)) as [Hk|Hk].
      * rewrite nth_error_app1 in H by lia. destruct (R k nm H) as (m' & A). exists m'. rewrite nth_error_app1 by lia. rewrite firstn_app. replace (k - length out)%nat with 0%nat by lia. cbn [firstn]. rewrite app_nil_r. auto.
      * rewrite nth_error_app2 in H by lia. destruct (k - length procs)%nat as [|z] eqn:Q; [|destruct z; discriminate H]. inversion H; subst nm.
        exists m. rewrite nth_error_app2 by lia. replace (k - length out)%nat with 0%nat by lia. replace k with (length out) by lia. rewrite firstn_app, Nat.sub_diag, firstn_all. cbn [firstn]. rewrite app_nil_r. auto.
    + apply NoDup_snoc; auto.
Qed.
(** a processor whose name no earlier one has got keeps it; in particular distinct names stay *)
Theorem C33_keeps_partial procs out k name : renamed procs out -> nth_error procs k = Some name -> ~ In name (firstn k out) -> nth_error out k = Some name.
Proof. intros [_ R] H N. destruct (R k name H) as ([|m] & A & _ & B); auto. exfalso. apply N. apply (B 0%nat). lia. Qed.
Theorem C33_distinct procs : NoDup procs -> set_unique_processor_names procs = Ok procs.
Proof.
  intros H. destruct (C33_names procs) as (out & E & R & _). rewrite E. f_equal. destruct R as [L R]. 
  assert (K : forall k, (k <= length procs)%nat -> firstn k out = firstn k procs).
  { induction k as [|k IH]; intros Hk; auto. destruct (nth_error procs k) as [name|] eqn:Q; [|apply nth_error_None in Q; lia].
    destruct (R k name Q) as (m & A & B & C). rewrite IH in B, C by lia.
    assert (Hn : ~ In name (firstn k procs)). { intros K. apply In_nth_error in K as (j & K). assert (j < k)%nat. { assert (nth_error (firstn k procs) j <> None) as X by congruence. apply nth_error_Some in X. rewrite firstn_length in X. lia. }
      assert (nth_error procs j = Some name). { rewrite <- (firstn_skipn k procs), nth_error_app1; auto. rewrite firstn_length. lia. }
      assert (j = k); [|lia]. eapply NoDup_nth_error; [exact H|lia|congruence]. }
    destruct m; [|exfalso; apply Hn; apply (C 0%nat); lia]. cbn [suffixed] in A.
    assert (S1 : forall (l : list string) x, nth_error l k = Some x -> firstn (S k) l = firstn k l ++ [x]).
    { clear. induction k as [|k IH]; intros [|y l] x H; try discriminate; simpl in H; [inversion H; auto|]. cbn [firstn app]. f_equal. apply IH. auto. }
    rewrite (@S1 _ _ A), (@S1 _ _ Q), IH by lia. auto. }
  specialize (K (length procs) (le_n _)). rewrite firstn_all in K. rewrite <- L in K. rewrite firstn_all in K. auto.
Qed.
(** The claim also says that a processor is renamed only if it shares its name with another one.  That is false: the second
    processor is renamed to the name of the third *)
Theorem C33_keeps_refuted : exists procs out k name, set_unique_processor_names procs = Ok out /\ nth_error procs k = Some name /\
  (forall j, j <> k -> nth_error procs j <> Some name) /\ nth_error out k <> Some name.
Proof.
  exists ["a"; "a"; "a 1"], ["a"; "a 1"; "a 1 1"], 2%nat, "a 1". split; [vm_compute; reflexivity|]. split; [reflexivity|]. split; [|intros K; inversion K].
  intros [|[|[|j]]] Hj; try discriminate; [congruence|]. destruct j; discriminate.
Qed.
Example C33_example : exists out, set_unique_processor_names ["p"; "q"; "p"; "p"; "p 1"] = Ok out /\ renamed ["p"; "q"; "p"; "p"; "p 1"] out /\ out = ["p"; "q"; "p 1"; "p 2"; "p 1 1"].
Proof. destruct (C33_names ["p"; "q"; "p"; "p"; "p 1"]) as (out & E & R & _). exists out. repeat split; auto; try apply R. vm_compute in E. inversion E. reflexivity. Qed.
Print Assumptions C33_names.
Print Assumptions C33_keeps_partial.
Print Assumptions C33_distinct.
Print Assumptions C33_keeps_refuted.

(* ------------------------------------------------------------------ concrete cases that meet the hypotheses *)
Example C31_blocks_meets : 0 <= 10 /\ 1 <= 4 /\ 0 <= 3 < 4.
Proof. lia. Qed.
Example C31_middle_meets : exists l, 1 <= 4 /\ splits 3 4 10 l /\ l = [1] ++ 4 :: [4; 1] /\ [1] <> [] /\ [4; 1] <> [].
Proof. destruct C31_example as (l & _ & S & -> & _). exists [1; 4; 4; 1]. split; [lia|]. split; [exact S|]. split; [reflexivity|]. split; discriminate. Qed.
Example C31_unique_meets : exists l l', 1 <= 4 /\ splits 3 4 10 l /\ splits 3 4 10 l' /\ (2 <= length l)%nat.
Proof. destruct C31_example as (l & _ & S & -> & _). exists [1; 4; 4; 1], [1; 4; 4; 1]. split; [lia|]. split; [exact S|]. split; [exact S|cbn; lia]. Qed.
Example C31_with_buffer_meets : 0 <= 10 /\ 1 <= 4 /\ 20 <= 23 < 20 + 4.
Proof. lia. Qed.
(** the start may lie behind the block *)
Example C31_terminates_meets : 1 <= 4 /\ exists l, calc_block_sizes 10 6 4 = Ok l /\ 4 < 6.
Proof. split; [lia|]. destruct (@C31_terminates 10 6 4) as (l & E); [lia|]. exists l. split; [exact E|lia]. Qed.
Example C32_blocks_meets : 1 <= 5 /\ 3 <= 20.
Proof. lia. Qed.
Example C33_keeps_partial_meets : exists procs out k name, renamed procs out /\ nth_error procs k = Some name /\ ~ In name (firstn k out) /\ (1 <= k)%nat.
Proof.
  destruct C33_example as (out & _ & R & ->). eexists _, _, 1%nat, "q"%string. split; [exact R|]. split; [reflexivity|]. split; [|lia].
  cbn. intros [H|[]]. discriminate H.
Qed.
Example C33_distinct_meets : NoDup ["p"; "p 1"; "q"]%string.
Proof. repeat constructor; cbn; intuition discriminate. Qed.
