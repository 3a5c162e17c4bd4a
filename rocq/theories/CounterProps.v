(** Properties of event and phase counters: C22, C23. *)
Require Import Verif.PyBase Verif.PyLemmas Verif.CounterModel.
Set Implicit Arguments.
Arguments Z.add : simpl never.
Arguments Z.sub : simpl never.
Arguments Z.mul : simpl never.
Local Open Scope string_scope.
Local Open Scope list_scope.
Local Open Scope Z_scope.

(* ------------------------------------------------------------------ C22 *)
(** what a user does with an event counter *)
Inductive evop := Progress | Add (name : string) (freq offset : Z).
Definition ev_do (c : evc) (o : evop) : res evc := match o with Progress => evc_progress c | Add n f k => Ok (evc_add c n f k) end.
(** number of calls to progress *)
Fixpoint progressed (h : list evop) : Z := match h with [] => 0 | Progress :: r => 1 + progressed r | Add _ _ _ :: r => progressed r end.
(** the frequency and offset an event has after the history h: those given last *)
Definition current (d : dict (Z * Z)) (h : list evop) (nm : string) : option (Z * Z) :=
  fold_left (fun cur o => match o with Add n f k => if String.eqb n nm then Some (f, k) else cur | Progress => cur end) h (dget d nm).
(** the events in the order in which they were first defined *)
Fixpoint first_seen (seen l : list string) : list string :=
  match l with [] => [] | x :: r => if in_dec string_dec x seen then first_seen seen r else x :: first_seen (x :: seen) r end.
Definition defined (d : dict (Z * Z)) (h : list evop) : list string :=
  first_seen [] (map fst d ++ flat_map (fun o => match o with Add n _ _ => [n] | Progress => [] end) h).
(** does the event happen at sample n *)
Definition due (d : dict (Z * Z)) (h : list evop) (n : Z) (nm : string) : bool :=
  match current d h nm with Some (f, k) => if Znumtheory.Zdivide_dec f (n - k) then true else false | None => false end.

Lemma NoDup_snoc {A} (l : list A) x : NoDup l -> ~ In x l -> NoDup (l ++ [x]).
Proof. intros H Hx. apply NoDup_rev in H. rewrite <- (rev_involutive (l ++ [x])). apply NoDup_rev. rewrite rev_app_distr. cbn [rev app]. constructor; auto. rewrite <- in_rev. auto. Qed.
Lemma current_app d h o nm : current d (h ++ [o]) nm = match o with Add n f k => if String.eqb n nm then Some (f, k) else current d h nm | Progress => current d h nm end.
Proof. unfold current. rewrite fold_left_app. reflexivity. Qed.
Lemma progressed_app h o : progressed (h ++ [o]) = progressed h + match o with Progress => 1 | _ => 0 end.
Proof. induction h as [|[|n f k] h IH]; cbn [app progressed]; destruct o; cbn [progressed] in *; lia. Qed.
Lemma first_seen_ext l : forall s s', (forall x, In x s <-> In x s') -> first_seen s l = first_seen s' l.
Proof.
  induction l as [|x l IH]; intros s s' H; cbn [first_seen]; auto. destruct (in_dec string_dec x s) as [Q|Q], (in_dec string_dec x s') as [Q'|Q']; try (apply H in Q; contradiction); try (apply H in Q'; contradiction); auto.
  f_equal. apply IH. intros y. simpl. rewrite H. tauto.
Qed.
Lemma first_seen_app l : forall s x, first_seen s (l ++ [x]) = first_seen s l ++ (if in_dec string_dec x (s ++ l) then [] else [x]).
Proof.
  induction l as [|y l IH]; intros s x; cbn [app first_seen].
  - rewrite app_nil_r. destruct (in_dec string_dec x s); auto.
  - destruct (in_dec string_dec y s) as [Q|Q].
    + rewrite IH. f_equal. destruct (in_dec string_dec x (s ++ l)) as [A|A], (in_dec string_dec x (s ++ y :: l)) as [B|B]; auto; exfalso.
      * apply B. rewrite in_app_iff in *. simpl. tauto.
      * apply A. rewrite in_app_iff in *. simpl in B. destruct B as [B|[B|B]]; subst; tauto.
    + cbn [app]. f_equal. rewrite IH. f_equal. destruct (in_dec string_dec x ((y :: s) ++ l)) as [A|A], (in_dec string_dec x (s ++ y :: l)) as [B|B]; auto; exfalso.
      * apply B. rewrite in_app_iff in *. simpl in *. tauto.
      * apply A. rewrite in_app_iff in *. simpl in *. tauto.
Qed.
Lemma first_seen_nodup l : forall s, NoDup l -> (forall x, In x l -> ~ In x s) -> first_seen s l = l.
Proof.
  induction l as [|x l IH]; intros s HN H; cbn [first_seen]; auto. inversion HN; subst. destruct (in_dec string_dec x s) as [Q|Q]; [exfalso; apply (H x); simpl; auto|].
  f_equal. apply IH; auto. intros y Hy [->|Q']; [auto|]. apply (H y); simpl; auto.
Qed.
Lemma defined_app d h o : defined d (h ++ [o]) = match o with Add n _ _ => if in_dec string_dec n (defined d h) then defined d h else defined d h ++ [n] | Progress => defined d h end.
Proof.
  assert (K : forall l s x, In x (first_seen s l) <-> In x l /\ ~ In x s).
  { induction l as [|y l IH]; intros s x; cbn [first_seen]; [simpl; tauto|]. destruct (in_dec string_dec y s) as [Q|Q]; [rewrite IH; simpl; split; [tauto|intros [[->|?] ?]; tauto]|].
    simpl. rewrite IH. simpl. destruct (string_dec y x) as [->|]; tauto. }
  unfold defined. rewrite flat_map_app. cbn [flat_map]. rewrite app_nil_r, app_assoc. destruct o as [|n f k]; [rewrite app_nil_r; auto|]. rewrite first_seen_app. cbn [app].
  destruct (in_dec string_dec n (map fst d ++ _)) as [A|A], (in_dec string_dec n (first_seen _ _)) as [B|B]; auto.
  - rewrite app_nil_r. auto.
  - exfalso. apply B. rewrite K. simpl. tauto.
  - exfalso. apply A. apply K in B. tauto.
Qed.
(** the dictionary an event counter keeps *)
Lemma ev_state d h c : NoDup (map fst d) -> foldM ev_do (evc_init d) h = Ok c ->
  ev_idx c = progressed h /\ map fst (ev_def c) = defined d h /\ NoDup (defined d h) /\ forall nm, dget (ev_def c) nm = current d h nm.
Proof.
  intros HN. revert c. induction h as [|o h IH] using rev_ind; intros c H.
  - inversion H; subst. cbn. unfold defined. cbn [flat_map]. rewrite app_nil_r, first_seen_nodup; auto.
  - rewrite foldM_app in H. apply bind_ok in H as (c1 & H1 & H). destruct (IH _ H1) as (A & B & C & D). cbn [foldM] in H. apply bind_ok in H as (c2 & H & Q). inversion Q; subst c2; clear Q.
    rewrite progressed_app, defined_app. destruct o as [|n f k]; cbn [ev_do] in H.
    + unfold evc_progress, evc_check in H. apply bind_ok in H as (e & _ & H). inversion H; subst. cbn [ev_idx ev_def]. split; [lia|]. split; auto. split; auto. intros nm. rewrite current_app. apply D.
    + inversion H; subst c. unfold evc_add. cbn [ev_idx ev_def]. split; [lia|].
      assert (E : map fst (dset (ev_def c1) n (f, k)) = if in_dec string_dec n (defined d h) then defined d h else defined d h ++ [n]).
      { rewrite <- B. clear. induction (ev_def c1) as [|[k' v] l IH]; cbn [dset map fst app]; [destruct (in_dec string_dec n []); auto; contradiction|].
        destruct (String.eqb_spec n k') as [->|Hne]; cbn [map fst].
        - destruct (in_dec string_dec k' (k' :: map fst l)) as [Q|Q]; auto. exfalso. apply Q. simpl; auto.
        - rewrite IH. destruct (in_dec string_dec n (map fst l)) as [Q|Q], (in_dec string_dec n (k' :: map fst l)) as [Q'|Q']; auto; exfalso; simpl in Q'; [tauto|destruct Q' as [->|?]; tauto]. }
      split; auto. split.
      * destruct (in_dec _ _ _); auto. apply NoDup_snoc; auto.
      * intros nm. rewrite current_app, dget_dset, D, (String.eqb_sym nm n). auto.
Qed.
Lemma check_list idx l : forall acc, (forall nm f k, In (nm, (f, k)) l -> f <> 0) ->
  foldM (fun acc (kd : string * (Z * Z)) => let '(name, (freq, offset)) := kd in
           if freq =? 0 then Err ZeroDivisionError else if (idx - offset) mod freq =? 0 then Ok (acc ++ [name]) else Ok acc) acc l =
  Ok (acc ++ map fst (filter (fun kd => if Znumtheory.Zdivide_dec (fst (snd kd)) (idx - snd (snd kd)) then true else false) l)).
Proof.
  induction l as [|[nm [f k]] l IH]; intros acc H; cbn [foldM filter map]; [rewrite app_nil_r; auto|]. pose proof (H nm f k ltac:(simpl; auto)) as Hf.
  assert (forall nm f k, In (nm, (f, k)) l -> f <> 0) as Hl by (intros; eapply H; simpl; eauto).
  destruct (Z.eqb_spec f 0); [lia|]. cbn [fst snd]. destruct (Z.eqb_spec ((idx - k) mod f) 0) as [Q|Q].
  - destruct (Znumtheory.Zdivide_dec f (idx - k)) as [R|R]; [|exfalso; apply R; apply Z.mod_divide; auto]. cbn [bind]. rewrite IH by auto. cbn [map fst]. rewrite <- app_assoc. auto.
  - destruct (Znumtheory.Zdivide_dec f (idx - k)) as [R|R]; [exfalso; apply Q; apply Z.mod_divide; auto|]. cbn [bind]. apply IH; auto.
Qed.
Lemma check_zero idx l : forall acc, (exists nm k, In (nm, (0, k)) l) ->
  foldM (fun acc (kd : string * (Z * Z)) => let '(name, (freq, offset)) := kd in
           if freq =? 0 then Err ZeroDivisionError else if (idx - offset) mod freq =? 0 then Ok (acc ++ [name]) else Ok acc) acc l = Err ZeroDivisionError.
Proof.
  induction l as [|[nm [f k]] l IH]; intros acc (n & k' & H); [contradiction|]. cbn [foldM]. destruct H as [H|H]; [inversion H; subst; reflexivity|].
  destruct (f =? 0); [reflexivity|]. destruct (_ =? 0); cbn [bind]; apply IH; eauto.
Qed.
Lemma zero_or (l : list (string * (Z * Z))) : (exists nm k, In (nm, (0, k)) l) \/ (forall (nm : string) f k, In (nm, (f, k)) l -> f <> 0).
Proof.
  induction l as [|[nm [f k]] l [(n & k' & H)|H]]; [right; intros ? ? ? []|left; exists n, k'; simpl; auto|].
  destruct (Z.eq_dec f 0) as [->|Hf]; [left; exists nm, k; simpl; auto|right]. intros n f' k' [Q|Q]; [inversion Q; subst; auto|eauto].
Qed.
(** C22.  After any history that ends with a call of progress the reported events are those due, in the order
    of their first definition *)
Theorem C22_events d h c : NoDup (map fst d) -> foldM ev_do (evc_init d) (h ++ [Progress]) = Ok c ->
  ev_event c = filter (due d h (progressed h + 1)) (defined d h).
Proof.
  intros HN H. rewrite foldM_app in H. apply bind_ok in H as (c1 & H1 & H). destruct (ev_state _ _ HN H1) as (A & B & C & D). cbn [foldM ev_do] in H. apply bind_ok in H as (c2 & H & Q). inversion Q; subst c2; clear Q.
  unfold evc_progress, evc_check in H. apply bind_ok in H as (e & He & H). inversion H; subst c; clear H. cbn [ev_def ev_idx ev_event] in *.
  destruct (zero_or (ev_def c1)) as [Z0|NZ]; [rewrite check_zero in He by auto; discriminate|]. rewrite check_list in He by auto. inversion He; subst e; clear He. cbn [app]. rewrite A, <- B.
  assert (K : forall l, (forall kv, In kv l -> current d h (fst kv) = Some (snd kv)) ->
     map fst (filter (fun kd : string * (Z * Z) => if Znumtheory.Zdivide_dec (fst (snd kd)) (progressed h + 1 - snd (snd kd)) then true else false) l) = filter (due d h (progressed h + 1)) (map fst l)).
  { induction l as [|[nm [f k]] l IH]; intros HK; cbn [filter map fst snd]; auto. unfold due at 1. pose proof (HK _ (or_introl eq_refl)) as HK1. cbn [fst snd] in HK1. rewrite HK1.
    destruct (Znumtheory.Zdivide_dec f _); cbn [map fst]; rewrite IH; auto; intros; apply HK; simpl; auto. }
  apply K. intros [nm v] Hin. rewrite <- D. apply In_dget; auto. unfold dkeys. rewrite B. auto.
Qed.
(** progress raises exactly if some event has frequency 0 *)
Theorem C22_raises d h c : NoDup (map fst d) -> foldM ev_do (evc_init d) h = Ok c ->
  ((exists c', evc_progress c = Ok c') <-> forall nm k, current d h nm <> Some (0, k)).
Proof.
  intros HN H. destruct (ev_state _ _ HN H) as (A & B & C & D). unfold evc_progress, evc_check. cbn [ev_def ev_idx].
  destruct (zero_or (ev_def c)) as [Z0|NZ].
  - rewrite check_zero by auto. cbn [bind]. split; [intros [? Q]; discriminate|]. intros Q. exfalso. destruct Z0 as (nm & k & Hin). apply (Q nm k). rewrite <- D. apply In_dget; auto. unfold dkeys. rewrite B. auto.
  - rewrite check_list by auto. cbn [bind]. split; [|eauto]. intros _ nm k Q. rewrite <- D in Q. apply dget_In in Q. eapply NZ; eauto.
Qed.
(** before the first call nothing is reported, and adding an event does not change what is reported *)
Theorem C22_between d c nm f k : ev_event (evc_init d) = [] /\ ev_event (evc_add c nm f k) = ev_event c.
Proof. split; reflexivity. Qed.
(** the example of the class documentation: at sample 256 all three events happen *)
Example C22_example : exists c, NoDup (map fst [("event_1", (256, 0)); ("event_2", (1, 0))]) /\
  foldM ev_do (evc_init [("event_1", (256, 0)); ("event_2", (1, 0))]) ((Add "event_3" 1024 256 :: repeat Progress 255) ++ [Progress]) = Ok c /\
  ev_event c = ["event_1"; "event_2"; "event_3"] /\ ev_idx c = 256.
Proof. eexists. split; [repeat constructor; simpl; intuition discriminate|]. split; [vm_compute; reflexivity|]. split; reflexivity. Qed.

(* ------------------------------------------------------------------ C23 *)
(** phases follow one another, a negative length means that the phase never ends; the phase sample n falls into *)
Fixpoint phase_at (l : dict ext) (n : Z) : option string :=
  match l with
  | [] => None
  | (nm, Fin z) :: r => if (z <? 0) || (n <? z) then Some nm else phase_at r (n - z)
  | (nm, Inf) :: _ => Some nm
  end.
(** is sample n the first one of its phase *)
Fixpoint begins_at (l : dict ext) (n : Z) : bool :=
  match l with
  | [] => false
  | (_, Fin z) :: r => if (z <? 0) || (n <? z) then n =? 0 else begins_at r (n - z)
  | (_, Inf) :: _ => n =? 0
  end.
Definition nonempty (kl : string * ext) : bool := match snd kl with Fin z => negb (z =? 0) | Inf => true end.
(** n calls of progress on a new counter *)
Fixpoint phc_after (l : dict ext) (n : nat) : res phc := match n with O => phc_init l | S k => c <- phc_after l k ;; phc_progress c end.

(** phases that are not empty, with their starts *)
Fixpoint build (a : ext) (l : dict ext) : list (string * ext) :=
  match l with
  | [] => []
  | (nm, e) :: r => let e := match e with Fin z => if 0 <=? z then Fin z else Inf | Inf => Inf end in
                    if ext_pos e then (nm, a) :: build (ext_add a e) r else build (ext_add a e) r
  end.
Definition norm (kl : string * ext) : string * ext := (fst kl, match snd kl with Fin z => if 0 <=? z then Fin z else Inf | Inf => Inf end).
Lemma build_names l : forall a, map fst (filter (fun kl => ext_pos (snd kl)) (map norm l)) = map fst (build a l).
Proof.
  induction l as [|[nm e] l IH]; intros a; cbn [map filter build fst snd norm]; auto. set (e' := match e with Fin z => _ | Inf => Inf end).
  destruct (ext_pos e') eqn:Q; cbn [map fst]; rewrite (IH (ext_add a e')); auto.
Qed.
Lemma cumsum_length l : forall a, length (cumsum a l) = length l.
Proof. induction l; intros; simpl; auto. Qed.
Lemma build_starts l : forall a rest, map fst (filter (fun sl => ext_pos (snd sl)) (combine ((a :: cumsum a (map snd (map norm l))) ++ rest) (map snd (map norm l)))) = map snd (build a l).
Proof.
  induction l as [|[nm e] l IH]; intros a rest; cbn [map cumsum app combine filter build snd fst norm]; auto. set (e' := match e with Fin z => _ | Inf => Inf end).
  specialize (IH (ext_add a e') rest). cbn [app] in IH. destruct (ext_pos e') eqn:Q; cbn [map fst snd]; rewrite <- IH; auto.
Qed.
Lemma combine_removelast {A B} (l : list B) : forall (s : list A), length s = S (length l) -> combine (removelast s) l = combine s l.
Proof.
  induction l as [|y l IH]; intros s H; [destruct (removelast s); destruct s; auto|]. destruct s as [|x [|x' s]]; try discriminate H.
  change (removelast (x :: x' :: s)) with (x :: removelast (x' :: s)). cbn [combine]. f_equal. apply IH. simpl in *. lia.
Qed.
Lemma snd_combine {A B} (l : list A) : forall (s : list B), length l = length s -> map snd (combine l s) = s.
Proof. induction l as [|x l IH]; intros [|y s] H; simpl in *; try discriminate; auto. f_equal. apply IH. lia. Qed.
Lemma removelast_length {A} (s : list A) : length (removelast s) = pred (length s).
Proof. induction s as [|x [|y s] IH]; auto. change (removelast (x :: y :: s)) with (x :: removelast (y :: s)). simpl length in *. lia. Qed.
(** the public start indices *)
Definition start_table (l : dict ext) : list (option string * ext) :=
  let starts := Fin 0 :: cumsum (Fin 0) (map snd (map norm l)) in
  match last starts Inf with Fin _ => combine (map (fun kl => Some (fst kl)) (map norm l) ++ [None]) starts
  | Inf => combine (map (fun kl => Some (fst kl)) (map norm l)) (removelast starts) end.
Lemma init_queues l : phc_init l = phc_next_phase (mkPhc (start_table l) None true 0 (map fst (build (Fin 0) l)) (map snd (build (Fin 0) l))).
Proof.
  unfold phc_init. change (map (fun kl : string * ext => (fst kl, match snd kl with Fin z => if 0 <=? z then Fin z else Inf | Inf => Inf end)) l) with (map norm l). cbv zeta.
  rewrite (build_names l (Fin 0)). unfold start_table. cbv zeta. set (starts := Fin 0 :: _).
  assert (L : length starts = S (length (map norm l))) by (unfold starts; cbn [length]; rewrite cumsum_length, map_length; auto).
  assert (K : map fst (filter (fun sl => ext_pos (snd sl)) (combine starts (map snd (map norm l)))) = map snd (build (Fin 0) l)) by (rewrite <- (build_starts l (Fin 0) []), app_nil_r; auto).
  destruct (last starts Inf); rewrite snd_combine.
  - rewrite K. auto.
  - rewrite app_length, L, !map_length. cbn [length]. lia.
  - rewrite combine_removelast by (rewrite map_length; auto). rewrite K. auto.
  - rewrite removelast_length, L, !map_length. reflexivity.
Qed.
Lemma build_inf l : forall x, In x (build Inf l) -> snd x = Inf.
Proof. induction l as [|[nm e] l IH]; cbn [build]; intros x H; [contradiction|]. cbn [ext_add] in H. destruct (ext_pos _); auto. destruct H as [<-|H]; auto. Qed.
Lemma build_ge l : forall a x, In x (build (Fin a) l) -> match snd x with Fin s => a <= s | Inf => True end.
Proof.
  induction l as [|[nm e] l IH]; cbn [build]; intros a x H; [contradiction|]. destruct e as [z|]; [destruct (Z.leb_spec 0 z)|]; cbn [ext_add ext_pos] in H.
  - destruct (0 <? z); [destruct H as [<-|H]; [simpl; lia|]|]; apply IH in H; destruct (snd x); auto; lia.
  - destruct H as [<-|H]; [simpl; lia|]. rewrite (build_inf _ _ H). auto.
  - destruct H as [<-|H]; [simpl; lia|]. rewrite (build_inf _ _ H). auto.
Qed.
Definition later (rest : list (string * ext)) (n : Z) : Prop := match rest with (_, Fin s) :: _ => n < s | _ => True end.
Lemma link l : forall a n pre nm s rest, build (Fin a) l = pre ++ (nm, Fin s) :: rest -> s <= n -> later rest n ->
  phase_at l (n - a) <> None -> phase_at l (n - a) = Some nm /\ begins_at l (n - a) = (n =? s).
Proof.
  induction l as [|[k e] l IH]; intros a n pre nm s rest H Hs Hl Hp; [destruct pre; discriminate H|]. cbn [build phase_at begins_at] in *.
  assert (Hinf : forall pre', build Inf l <> pre' ++ (nm, Fin s) :: rest).
  { intros pre' Q. pose proof (build_inf l (nm, Fin s)) as K. rewrite Q in K. specialize (K ltac:(apply in_or_app; simpl; auto)). discriminate K. }
  assert (Hhd : forall z, phase_at l (n - a - z) <> None -> 0 <= n - a - z -> exists nm' r', build (Fin (a + z)) l = (nm', Fin (a + z)) :: r').
  { clear. intros z. generalize (a + z) (n - a - z). clear. induction l as [|[k e] l IH]; intros b m H Hm; [cbn in H; congruence|]. cbn [phase_at build] in *. destruct e as [z|]; [|cbn [ext_pos]; eauto].
    destruct (Z.leb_spec 0 z); [|cbn [ext_pos]; eauto]. cbn [ext_pos ext_add]. destruct (Z.ltb_spec 0 z); eauto.
    assert (z = 0) as -> by lia. replace (b + 0) with b by lia. apply (IH b m); auto. destruct (Z.ltb_spec 0 0); [lia|]. cbn [orb] in H. destruct (Z.ltb_spec m 0); [lia|]. replace (m - 0) with m in H by lia. auto. }
  destruct e as [z|].
  - destruct (Z.leb_spec 0 z).
    + destruct (Z.ltb_spec z 0); [lia|]. cbn [orb]. cbn [orb] in Hp. cbn [ext_pos ext_add] in H. destruct (Z.ltb_spec 0 z).
      * destruct pre as [|q pre]; cbn [app] in H.
        -- inversion H; subst. destruct (Z.ltb_spec (n - s) z); [split; auto; destruct (Z.eqb_spec (n - s) 0), (Z.eqb_spec n s); auto; lia|].
           destruct (Hhd z Hp ltac:(lia)) as (nm' & r' & Q). rewrite Q in Hl. simpl in Hl. lia.
        -- inversion H; subst. match goal with Q : build _ _ = _ |- _ => rename Q into HB end.
           pose proof (build_ge l (a + z) (nm, Fin s) ltac:(rewrite HB; apply in_or_app; simpl; auto)) as G. simpl in G.
           destruct (Z.ltb_spec (n - a) z); [lia|]. replace (n - a - z) with (n - (a + z)) in * by lia. eapply IH; eauto.
      * destruct (Z.ltb_spec (n - a) z) as [Hn|Hn].
        { pose proof (build_ge l (a + z) (nm, Fin s) ltac:(rewrite H; apply in_or_app; simpl; auto)) as G. simpl in G. lia. }
        replace (n - a - z) with (n - (a + z)) in * by lia. eapply IH; eauto.
    + destruct (Z.ltb_spec z 0); [|lia]. cbn [orb]. cbn [ext_pos ext_add] in H. destruct pre as [|q pre]; cbn [app] in H; inversion H; subst; [|exfalso; eapply Hinf; eauto].
      split; auto. destruct (Z.eqb_spec (n - s) 0), (Z.eqb_spec n s); auto; lia.
  - cbn [ext_pos ext_add] in H. destruct pre as [|q pre]; cbn [app] in H; inversion H; subst; [|exfalso; eapply Hinf; eauto].
    split; auto. destruct (Z.eqb_spec (n - s) 0), (Z.eqb_spec n s); auto; lia.
Qed.
Lemma none_all l : forall a k, phase_at l k = None -> 0 <= k -> forall x, In x (build (Fin a) l) -> exists s, snd x = Fin s /\ s < a + k.
Proof.
  induction l as [|[nm e] l IH]; intros a k H Hk x Hx; cbn [build phase_at] in *; [contradiction|]. destruct e as [z|]; [|discriminate H].
  destruct (Z.ltb_spec z 0); [discriminate H|]. cbn [orb] in H. destruct (Z.ltb_spec k z); [discriminate H|]. destruct (Z.leb_spec 0 z); [|lia]. cbn [ext_pos ext_add] in Hx.
  assert (K : In x (build (Fin (a + z)) l) -> exists s, snd x = Fin s /\ s < a + k).
  { intros Q. destruct (IH (a + z) (k - z) H ltac:(lia) x Q) as (s & E & L). exists s. split; auto. lia. }
  destruct (Z.ltb_spec 0 z); auto. destruct Hx as [<-|Hx]; auto. exists a. split; auto. lia.
Qed.
Lemma build_sorted l : forall a pre x y rest, build (Fin a) l = pre ++ x :: y :: rest -> match snd x, snd y with Fin s, Fin s' => s < s' | Inf, Fin _ => False | _, Inf => True end.
Proof.
  induction l as [|[k e] l IH]; intros a pre x y rest H; [destruct pre; discriminate H|]. cbn [build] in H.
  assert (Hinf : forall pre x, build Inf l = pre ++ x :: y :: rest -> snd y = Inf).
  { intros p q Q. apply (build_inf l). rewrite Q. apply in_or_app. simpl. auto. }
  assert (Hinf' : forall pre x, build Inf l = pre ++ x :: y :: rest -> snd x = Inf).
  { intros p q Q. apply (build_inf l). rewrite Q. apply in_or_app. simpl. auto. }
  destruct e as [z|]; [destruct (Z.leb_spec 0 z)|]; cbn [ext_pos ext_add] in H.
  - destruct (Z.ltb_spec 0 z); [|eapply IH; eauto]. destruct pre as [|q pre]; cbn [app] in H; inversion H; subst; [|eapply IH; eauto].
    cbn [snd]. match goal with Q : build _ _ = _ |- _ => pose proof (build_ge l (a + z) y ltac:(rewrite Q; simpl; auto)) as G end. destruct (snd y); auto. lia.
  - destruct pre as [|q pre]; cbn [app] in H; inversion H; subst; [cbn [snd]; match goal with Q : build _ _ = _ |- _ => rewrite (build_inf l y) by (rewrite Q; simpl; auto) end; auto|].
    match goal with Q : build _ _ = _ |- _ => rewrite (Hinf _ _ Q), (Hinf' _ _ Q) end. auto.
  - destruct pre as [|q pre]; cbn [app] in H; inversion H; subst; [cbn [snd]; match goal with Q : build _ _ = _ |- _ => rewrite (build_inf l y) by (rewrite Q; simpl; auto) end; auto|].
    match goal with Q : build _ _ = _ |- _ => rewrite (Hinf _ _ Q), (Hinf' _ _ Q) end. auto.
Qed.
Definition at_phase (l : dict ext) (n : Z) (c : phc) : Prop := exists pre nm s rest, build (Fin 0) l = pre ++ (nm, Fin s) :: rest /\ s <= n /\ later rest n /\
  ph_starts c = start_table l /\ ph_phase c = Some nm /\ ph_first c = (n =? s) /\ ph_idx c = n /\ ph_names c = map fst rest /\
  ph_next c = match rest with [] => [Inf] | _ => map snd rest end.
Lemma build_empty l : build (Fin 0) l = [] <-> filter nonempty l = [].
Proof.
  generalize (Fin 0). induction l as [|[nm e] l IH]; intros a; cbn [build filter nonempty snd]; [tauto|]. destruct e as [z|]; cbn [nonempty snd]; [|split; discriminate].
  unfold nonempty at 1. cbn [snd]. destruct (Z.leb_spec 0 z); cbn [ext_pos]; [destruct (Z.ltb_spec 0 z), (Z.eqb_spec z 0); cbn [negb]; try lia; try apply IH; split; discriminate|].
  destruct (Z.eqb_spec z 0); [lia|]. cbn [negb]. split; discriminate.
Qed.
Lemma phases_run l : filter nonempty l <> [] -> forall n, exists c, phc_after l n = Ok c /\ at_phase l (Z.of_nat n) c.
Proof.
  intros HN. assert (exists nm rest, build (Fin 0) l = (nm, Fin 0) :: rest) as (nm0 & rest0 & H0).
  { assert (build (Fin 0) l <> []) as K by (rewrite build_empty; auto). clear HN. revert K. generalize 0. induction l as [|[nm e] l IH]; intros a K; [contradiction|]. cbn [build] in *. destruct e as [z|]; [|cbn; eauto].
    destruct (Z.leb_spec 0 z); [|cbn; eauto]. cbn [ext_pos ext_add] in *. destruct (Z.ltb_spec 0 z); eauto. assert (z = 0) as -> by lia. replace (a + 0) with a in * by lia. auto. }
  induction n as [|n (c & Hc & (pre & nm & s & rest & A1 & A2 & A3 & A4 & A5 & A6 & A7 & A8 & A9))].
  - cbn [phc_after]. rewrite init_queues, H0. cbn [map fst snd phc_next_phase ph_names ph_next ph_starts ph_idx]. eexists. split; [reflexivity|]. exists [], nm0, 0, rest0. cbn [app ph_starts ph_phase ph_first ph_idx ph_names ph_next].
    split; auto. split; [lia|]. split; [|repeat split; destruct rest0; auto]. destruct rest0 as [|[k' [s'|]] r]; cbn [later]; auto.
    pose proof (build_sorted l 0 [] (nm0, Fin 0) (k', Fin s') r H0) as K. cbn [snd] in K. lia.
  - cbn [phc_after]. rewrite Hc. cbn [bind]. unfold phc_progress. cbn [ph_next ph_idx]. rewrite A9, A7, A8, A4, A5. replace (Z.of_nat (S n)) with (Z.of_nat n + 1) by lia. destruct rest as [|[k' e] r].
    + cbn [ext_leb]. eexists. split; [reflexivity|]. exists pre, nm, s, []. cbn [ph_starts ph_phase ph_first ph_idx ph_names ph_next]. repeat split; auto; [lia|]. destruct (Z.eqb_spec (Z.of_nat n + 1) s); auto; lia.
    + cbn [map snd fst]. destruct e as [s'|]; cbn [ext_leb].
      * cbn [later] in A3. destruct (Z.leb_spec s' (Z.of_nat n + 1)).
        -- assert (s' = Z.of_nat n + 1) as -> by lia. cbn [phc_next_phase ph_names ph_next ph_starts ph_idx]. eexists. split; [reflexivity|]. exists (pre ++ [(nm, Fin s)]), k', (Z.of_nat n + 1), r.
           cbn [ph_starts ph_phase ph_first ph_idx ph_names ph_next]. split; [rewrite A1, <- app_assoc; auto|]. split; [lia|]. split; [|repeat split; auto; [destruct (Z.eqb_spec (Z.of_nat n + 1) (Z.of_nat n + 1)); auto; lia|destruct r; auto]].
           destruct r as [|[k2 [s2|]] r]; cbn [later]; auto.
           pose proof (build_sorted l 0 (pre ++ [(nm, Fin s)]) (k', Fin (Z.of_nat n + 1)) (k2, Fin s2) r ltac:(rewrite A1, <- app_assoc; auto)) as K. cbn [snd] in K. lia.
        -- eexists. split; [reflexivity|]. exists pre, nm, s, ((k', Fin s') :: r). cbn [ph_starts ph_phase ph_first ph_idx ph_names ph_next]. repeat split; auto; [lia|]. destruct (Z.eqb_spec (Z.of_nat n + 1) s); auto; lia.
      * eexists. split; [reflexivity|]. exists pre, nm, s, ((k', Inf) :: r). cbn [ph_starts ph_phase ph_first ph_idx ph_names ph_next]. repeat split; auto; [lia|]. destruct (Z.eqb_spec (Z.of_nat n + 1) s); auto; lia.
Qed.

(** C23.  While phases last: the reported phase and first_sample after n calls of progress.  (The claim that the
    phase is None afterwards is false, see below.) *)
Theorem C23_phase_partial l n : phase_at l (Z.of_nat n) <> None -> exists c, phc_after l n = Ok c /\
  ph_phase c = phase_at l (Z.of_nat n) /\ ph_first c = begins_at l (Z.of_nat n) /\ ph_idx c = Z.of_nat n.
Proof.
  intros H. assert (HN : filter nonempty l <> []).
  { intros Q. assert (K : forall m, 0 <= m -> phase_at l m = None).
    { clear H. induction l as [|[nm e] l IH]; intros m Hm; auto. cbn [filter nonempty snd phase_at] in *. unfold nonempty at 1 in Q. cbn [snd] in Q. destruct e as [z|]; [|discriminate Q].
      destruct (Z.eqb_spec z 0); [|discriminate Q]. subst. destruct (Z.ltb_spec 0 0); [lia|]. cbn [orb]. destruct (Z.ltb_spec m 0); [lia|]. apply IH; auto. lia. }
    apply H. apply K. lia. }
  destruct (phases_run l HN n) as (c & Hc & (pre & nm & s & rest & A1 & A2 & A3 & A4 & A5 & A6 & A7 & A8 & A9)). exists c. split; auto.
  destruct (@link l 0 _ _ _ _ _ A1 A2 A3) as [L1 L2]; [replace (Z.of_nat n - 0) with (Z.of_nat n) by lia; auto|]. replace (Z.of_nat n - 0) with (Z.of_nat n) in * by lia. rewrite A5, A6, A7, L1, L2. auto.
Qed.
(** empty phases are never reported: a phase that is reported contains the sample *)
Theorem C23_not_empty l n nm : phase_at l n = Some nm -> 0 <= n -> exists e, In (nm, e) l /\ nonempty (nm, e) = true.
Proof.
  revert n. induction l as [|[k e] l IH]; intros n H Hn; [discriminate H|]. cbn [phase_at] in H. destruct e as [z|]; [|inversion H; subst; exists Inf; simpl; auto].
  destruct (Z.ltb_spec z 0), (Z.ltb_spec n z); cbn [orb] in H; try (inversion H; subst; exists (Fin z); split; [simpl; auto|]; unfold nonempty; cbn [snd]; destruct (Z.eqb_spec z 0); auto; lia).
  destruct (IH (n - z) H ltac:(lia)) as (e & He & Hne). exists e. simpl. auto.
Qed.
(** what happens instead when all phases have finished: the last phase that is not empty is reported for ever *)
Theorem C23_after_end l n : phase_at l (Z.of_nat n) = None -> filter nonempty l <> [] -> exists c, phc_after l n = Ok c /\
  ph_phase c = Some (last (map fst (filter nonempty l)) EmptyString) /\ ph_first c = false.
Proof.
  intros H HN. destruct (phases_run l HN n) as (c & Hc & (pre & nm & s & rest & A1 & A2 & A3 & A4 & A5 & A6 & A7 & A8 & A9)). exists c. split; auto.
  pose proof (none_all l 0 H ltac:(lia)) as K. assert (rest = []) as ->.
  { destruct rest as [|[k' e] r]; auto. destruct (K (k', e)) as (s' & E & L); [rewrite A1; apply in_or_app; simpl; auto|]. cbn [snd] in E. subst e. cbn [later] in A3. lia. }
  destruct (K (nm, Fin s)) as (s' & E & L); [rewrite A1; apply in_or_app; simpl; auto|]. cbn [snd] in E. inversion E; subst s'. split.
  - rewrite A5. f_equal. assert (G : forall l a, map fst (filter nonempty l) = map fst (build a l)).
    { clear. induction l as [|[nm e] l IH]; intros a; auto. cbn [filter build]. unfold nonempty at 1. cbn [snd]. destruct e as [z|]; [|cbn [ext_pos map fst]; f_equal; apply IH].
      destruct (Z.leb_spec 0 z); cbn [ext_pos]; [destruct (Z.ltb_spec 0 z), (Z.eqb_spec z 0); cbn [negb map fst]; try lia; try (f_equal; apply IH); apply IH|].
      destruct (Z.eqb_spec z 0); [lia|]. cbn [negb map fst]. f_equal. apply IH. }
    rewrite (G l (Fin 0)), A1, map_app. cbn [map fst]. rewrite last_last. auto.
  - rewrite A6. destruct (Z.eqb_spec (Z.of_nat n) s); auto. lia.
Qed.
(** C23 is false after the end: two phases of two samples, then the phase is not None but still the second one *)
Theorem C23_finished_refuted : exists l n c, phase_at l (Z.of_nat n) = None /\ phc_after l n = Ok c /\ ph_phase c = Some "b" /\ phc_current_phase_is c None = false.
Proof. exists [("a", Fin 2); ("b", Fin 2)], 5%nat. eexists. split; [vm_compute; reflexivity|]. split; [vm_compute; reflexivity|]. split; reflexivity. Qed.
(** a counter without any phase cannot be created *)
Theorem C23_no_phase l : filter nonempty l = [] -> phc_init l = Err IndexError.
Proof. intros H. apply build_empty in H. rewrite init_queues, H. reflexivity. Qed.
(** current_phase_is compares with the reported phase *)
Theorem C23_current c nm : phc_current_phase_is c nm = true <-> ph_phase c = nm.
Proof. unfold phc_current_phase_is. destruct (ph_phase c) as [a|], nm as [b|]; try (split; congruence). rewrite String.eqb_eq. split; congruence. Qed.
(** start_idxs: every phase of finite beginning with its first sample, and None with the end if there is one *)
Fixpoint begins (a : Z) (l : dict ext) : list (option string * ext) :=
  match l with
  | [] => [(None, Fin a)]
  | (nm, Fin z) :: r => (Some nm, Fin a) :: (if z <? 0 then map (fun kl => (Some (fst kl), Inf)) r else begins (a + z) r)
  | (nm, Inf) :: r => (Some nm, Fin a) :: map (fun kl => (Some (fst kl), Inf)) r
  end.
Theorem C23_start_idxs l n c : phc_after l n = Ok c -> ph_starts c = begins 0 l.
Proof.
  intros H. destruct (filter nonempty l) eqn:Q.
  - exfalso. assert (K : forall m, phc_after l m = Err IndexError) by (induction m as [|m IH]; cbn [phc_after]; [apply C23_no_phase; auto|rewrite IH; auto]). rewrite K in H. discriminate H.
  - destruct (phases_run l ltac:(rewrite Q; discriminate) n) as (c' & Hc & (pre & nm & s & rest & A1 & A2 & A3 & A4 & _)). rewrite H in Hc. inversion Hc; subst c'. rewrite A4. clear. unfold start_table. cbv zeta.
    assert (KI : forall l, l <> [] -> last (cumsum Inf (map snd (map norm l))) Inf = Inf /\ combine (map (fun kl : string * ext => Some (fst kl)) (map norm l)) (removelast (Inf :: cumsum Inf (map snd (map norm l)))) = map (fun kl => (Some (fst kl), Inf)) l).
    { induction l0 as [|[k e] r IH]; intros HN; [congruence|]. cbn [map cumsum norm fst snd ext_add]. destruct r as [|x r]; [split; reflexivity|]. destruct (IH ltac:(discriminate)) as [I1 I2].
      remember (x :: r) as r'. split; [destruct (cumsum Inf (map snd (map norm r'))) eqn:C; [subst r'; discriminate C|]; rewrite <- C in *; rewrite C; rewrite C in I1; exact I1|].
      change (removelast (Inf :: Inf :: cumsum Inf (map snd (map norm r')))) with (Inf :: removelast (Inf :: cumsum Inf (map snd (map norm r')))). cbn [combine]. f_equal. exact I2. }
    generalize 0. induction l as [|[k e] r IH]; intros a; [reflexivity|]. cbn [begins]. cbn [map cumsum norm fst snd].
    assert (EI : match last (Fin a :: Inf :: cumsum Inf (map snd (map norm r))) Inf with
       | Fin _ => combine (Some k :: map (fun kl => Some (fst kl)) (map norm r) ++ [None]) (Fin a :: Inf :: cumsum Inf (map snd (map norm r)))
       | Inf => combine (Some k :: map (fun kl => Some (fst kl)) (map norm r)) (removelast (Fin a :: Inf :: cumsum Inf (map snd (map norm r)))) end = (Some k, Fin a) :: map (fun kl => (Some (fst kl), Inf)) r).
    { destruct r as [|x r]; [reflexivity|]. destruct (KI (x :: r) ltac:(discriminate)) as [I1 I2]. remember (x :: r) as r'.
      assert (last (Fin a :: Inf :: cumsum Inf (map snd (map norm r'))) Inf = Inf) as ->. { destruct (cumsum Inf (map snd (map norm r'))) eqn:C; [reflexivity|]. exact I1. }
      change (removelast (Fin a :: Inf :: cumsum Inf (map snd (map norm r')))) with (Fin a :: removelast (Inf :: cumsum Inf (map snd (map norm r')))). cbn [combine]. f_equal. exact I2. }
    destruct e as [z|]; [|exact EI]. destruct (Z.leb_spec 0 z); [|destruct (Z.ltb_spec z 0); [exact EI|lia]]. destruct (Z.ltb_spec z 0); [lia|]. cbn [ext_add].
    rewrite <- (IH (a + z)). set (cs := Fin (a + z) :: cumsum _ _).
    change (last (Fin a :: cs) Inf) with (last cs Inf). destruct (last cs Inf); [reflexivity|]. change (removelast (Fin a :: cs)) with (Fin a :: removelast cs). reflexivity.
Qed.
(** the example of the class documentation with an empty phase in between *)
Example C23_example : phase_at [("init", Fin 2000); ("skip", Fin 0); ("wait", Fin 5000); ("process", Fin (-1))] 2000 = Some "wait" /\
  begins_at [("init", Fin 2000); ("skip", Fin 0); ("wait", Fin 5000); ("process", Fin (-1))] 2000 = true /\
  phase_at [("init", Fin 2000); ("skip", Fin 0); ("wait", Fin 5000); ("process", Fin (-1))] 7001 = Some "process" /\
  begins_at [("init", Fin 2000); ("skip", Fin 0); ("wait", Fin 5000); ("process", Fin (-1))] 7001 = false /\
  phase_at [("init", Fin 2000); ("wait", Fin 5000)] 7000 = None /\ filter nonempty [("init", Fin 2000); ("wait", Fin 5000)] <> [].
Proof. repeat (split; [reflexivity|]). discriminate. Qed.

Print Assumptions C22_events.
Print Assumptions C22_raises.
Print Assumptions C22_between.
Print Assumptions C23_phase_partial.
Print Assumptions C23_not_empty.
Print Assumptions C23_after_end.
Print Assumptions C23_finished_refuted.
Print Assumptions C23_no_phase.
Print Assumptions C23_current.
Print Assumptions C23_start_idxs.

(* ------------------------------------------------------------------ concrete cases that meet the hypotheses *)
Example C22_events_meets : exists c, NoDup (map fst [("a", (3, 0)); ("b", (2, 1))]) /\
  foldM ev_do (evc_init [("a", (3, 0)); ("b", (2, 1))]) ([Progress; Add "c" 1 0; Progress] ++ [Progress]) = Ok c /\ ev_event c = ["a"; "b"; "c"].
Proof. eexists. split; [repeat constructor; cbn; intuition discriminate|]. split; vm_compute; reflexivity. Qed.
(** the second definition makes the next step divide by 0 *)
Example C22_raises_meets : exists c, NoDup (map fst [("a", (3, 0))]) /\
  foldM ev_do (evc_init [("a", (3, 0))]) [Progress; Add "b" 0 1] = Ok c /\ evc_progress c = Err ZeroDivisionError.
Proof. eexists. split; [repeat constructor; cbn; intuition discriminate|]. split; vm_compute; reflexivity. Qed.
Definition phases : dict ext := [("init", Fin 3); ("skip", Fin 0); ("wait", Fin 5)].
Example C23_phase_partial_meets : phase_at phases (Z.of_nat 3) = Some "wait" /\ phase_at phases (Z.of_nat 3) <> None.
Proof. split; [reflexivity|discriminate]. Qed.
Example C23_not_empty_meets : phase_at phases 3 = Some "wait" /\ 0 <= 3.
Proof. split; [reflexivity|lia]. Qed.
Example C23_after_end_meets : phase_at phases (Z.of_nat 8) = None /\ filter nonempty phases <> [].
Proof. split; [reflexivity|discriminate]. Qed.
Example C23_no_phase_meets : filter nonempty [("a", Fin 0); ("b", Fin 0)] = [].
Proof. reflexivity. Qed.
Example C23_start_idxs_meets : exists c, phc_after phases 4 = Ok c /\ ph_starts c = [(Some "init", Fin 0); (Some "skip", Fin 3); (Some "wait", Fin 3); (None, Fin 8)].
Proof. eexists. split; vm_compute; reflexivity. Qed.
