(** Properties of attribute paths: C54. *)
Require Import Verif.PyBase Verif.PyLemmas Verif.PyStr Verif.PyStrLemmas Verif.AccessModel.
Set Implicit Arguments.
Local Open Scope string_scope.
Local Open Scope list_scope.
Local Open Scope Z_scope.

(* ------------------------------------------------------------------ specification *)
(** one access to an object: an attribute, an entry of a dictionary, an element of a sequence *)
Inductive access := Attr (name : string) | Key (k : string) | Index (i : Z).
(** the path as a user writes it *)
Definition render1 (a : access) : string :=
  match a with Attr n => "." ++ n | Key k => "['" ++ k ++ "']" | Index i => "[" ++ py_str i ++ "]" end.
Definition render (first : string) (rest : list access) : string := (first ++ String.concat "" (map render1 rest))%string.
(** no character of [s] is [c] *)
Definition free (c : ascii) (s : string) : Prop := forall a b, s <> (a ++ String c b)%string.
(** a name or key without the characters that structure a path *)
Definition plain (s : string) : Prop := free "." s /\ free "[" s /\ free "]" s /\ free "'" s.
Definition plain_access (a : access) : Prop := match a with Attr n => plain n | Key k => plain k | Index _ => True end.
Section Spec.
Context {O : Type} (getattr : O -> string -> res O) (getitem : O -> key -> res O).
(** the accesses one after the other *)
Fixpoint follow (path : list access) (obj : O) : res O :=
  match path with
  | [] => Ok obj
  | Attr n :: r => obj <- getattr obj n ;; follow r obj
  | Key k :: r => obj <- getitem obj (KStr k) ;; follow r obj
  | Index i :: r => obj <- getitem obj (KInt i) ;; follow r obj
  end.
End Spec.

(* ------------------------------------------------------------------ lemmas *)
Lemma free_nil c : free c "".
Proof. intros a b. destruct a; discriminate. Qed.
Lemma free_cons c x s : free c (String x s) <-> x <> c /\ free c s.
Proof.
  split.
  - intros H. split; [intros ->; apply (H "" s); auto|]. intros a b ->. apply (H (String x a) b). auto.
  - intros [H1 H2] [|y a] b E; injection E as -> E; [congruence|]. apply (H2 a b). auto.
Qed.
Lemma free_app c a b : free c (a ++ b)%string <-> free c a /\ free c b.
Proof.
  induction a as [|x a IH]; cbn [append]; [split; [intros; split; [apply free_nil|auto]|tauto]|]. rewrite !free_cons, IH. tauto.
Qed.
Lemma free_digits c s : is_digit c = false -> all_digits s = true -> free c s.
Proof. intros Hc Hs a b. apply digit_not; auto. Qed.
Lemma free_py_str c n : is_digit c = false -> c <> "-"%char -> free c (py_str n).
Proof.
  intros Hc Hm. destruct (Z.ltb_spec n 0) as [L|L].
  - assert (E : py_str n = String "-" (py_str (- n))). { unfold py_str. destruct (Z.ltb_spec n 0); [|lia]. destruct (Z.ltb_spec (- n) 0); [lia|]. reflexivity. }
    rewrite E. apply free_cons. split; [congruence|]. apply free_digits; auto. apply py_str_nonneg. lia.
  - apply free_digits; auto. apply py_str_nonneg. auto.
Qed.
Lemma int_of_str n : int_of (py_str n) = Ok n.
Proof.
  destruct (Z.ltb_spec n 0) as [L|L].
  - assert (E : py_str n = String "-" (py_str (- n))). { unfold py_str. destruct (Z.ltb_spec n 0); [|lia]. destruct (Z.ltb_spec (- n) 0); [lia|]. reflexivity. }
    rewrite E. unfold int_of. rewrite Ascii.eqb_refl. rewrite py_int_str by lia. cbn [bind]. f_equal. lia.
  - unfold int_of. pose proof (py_str_nonneg L) as (A & N & _). destruct (py_str n) as [|x r] eqn:Q; [congruence|]. destruct (Ascii.eqb_spec x "-") as [->|]; [discriminate A|]. rewrite <- Q. apply py_int_str. auto.
Qed.
Lemma py_str_first n : exists x r, py_str n = String x r /\ x <> "'"%char.
Proof.
  pose proof (@free_py_str "'" n eq_refl ltac:(discriminate)) as F. destruct (py_str n) as [|x r] eqn:Q.
  - pose proof (int_of_str n) as E. rewrite Q in E. discriminate.
  - exists x, r. split; auto. apply free_cons in F. tauto.
Qed.
Lemma remove_app c a b : remove_char c (a ++ b)%string = (remove_char c a ++ remove_char c b)%string.
Proof. induction a as [|x a IH]; cbn; auto. destruct (Ascii.eqb x c); cbn; congruence. Qed.
Lemma remove_free c s : free c s -> remove_char c s = s.
Proof. induction s as [|x s IH]; auto. intros H. apply free_cons in H as [H1 H2]. cbn. destruct (Ascii.eqb_spec x c); [congruence|]. rewrite IH; auto. Qed.
Lemma split_free c s : free c s -> split_on c s = [s].
Proof. induction s as [|x s IH]; auto. intros H. apply free_cons in H as [H1 H2]. cbn. destruct (Ascii.eqb_spec x c); [congruence|]. rewrite IH; auto. Qed.
Lemma split_cons c s b : free c s -> split_on c (s ++ String c b)%string = s :: split_on c b.
Proof.
  induction s as [|x s IH]; intros H; cbn [append split_on]; [rewrite Ascii.eqb_refl; auto|]. apply free_cons in H as [H1 H2]. destruct (Ascii.eqb_spec x c); [congruence|]. rewrite IH; auto.
Qed.
Lemma ends_app c s : ends_with c (s ++ String c "")%string = true.
Proof. induction s as [|x s IH]; cbn; [apply Ascii.eqb_refl|]. destruct s; auto. Qed.

(** accesses grouped by attributes *)
Definition item := option string.
Inductive sub := SKey (k : string) | SIdx (i : Z).
Definition sub_access (s : sub) : access := match s with SKey k => Key k | SIdx i => Index i end.
Definition sub_text (s : sub) : string := match s with SKey k => ("'" ++ k ++ "'")%string | SIdx i => py_str i end.
Definition group_text (g : string * list sub) : string := (fst g ++ String.concat "" (map (fun s => "[" ++ sub_text s) (snd g)))%string.
Definition flat (gs : list (string * list sub)) : list access := flat_map (fun g => Attr (fst g) :: map sub_access (snd g)) gs.
Fixpoint groups (n : string) (acc : list sub) (rest : list access) : list (string * list sub) :=
  match rest with
  | [] => [(n, acc)]
  | Attr m :: r => (n, acc) :: groups m [] r
  | Key k :: r => groups n (acc ++ [SKey k]) r
  | Index i :: r => groups n (acc ++ [SIdx i]) r
  end.
Lemma groups_flat rest : forall n acc, flat (groups n acc rest) = Attr n :: map sub_access acc ++ rest.
Proof.
  induction rest as [|[m|k|i] r IH]; intros n acc; cbn [groups].
  - cbn. auto.
  - unfold flat. cbn [flat_map fst snd]. fold (flat (groups m [] r)). rewrite IH. auto.
  - rewrite IH, map_app, <- app_assoc. auto.
  - rewrite IH, map_app, <- app_assoc. auto.
Qed.
Definition plain_sub (s : sub) : Prop := match s with SKey k => plain k | SIdx _ => True end.
Definition plain_group (g : string * list sub) : Prop := plain (fst g) /\ Forall plain_sub (snd g).
Lemma groups_plain rest : forall n acc, plain n -> Forall plain_sub acc -> Forall plain_access rest -> Forall plain_group (groups n acc rest).
Proof.
  induction rest as [|[m|k|i] r IH]; intros n acc Hn Ha Hr; cbn [groups].
  - constructor; [split; auto|constructor].
  - inversion Hr; subst. constructor; [split; auto|]. apply IH; auto.
  - inversion Hr; subst. apply IH; auto. apply Forall_app. split; auto.
  - inversion Hr; subst. apply IH; auto. apply Forall_app. split; [auto|repeat constructor].
Qed.
Lemma groups_nonempty rest n acc : groups n acc rest <> [].
Proof. revert n acc. induction rest as [|[m|k|i] r IH]; intros n acc; cbn [groups]; try discriminate; apply IH. Qed.
Fixpoint join (l : list string) : string := match l with [] => "" | [s] => s | s :: r => (s ++ String "." (join r))%string end.
Lemma concat_cons (s : string) l : String.concat "" (s :: l) = (s ++ String.concat "" l)%string.
Proof. cbn. destruct l; cbn; auto. rewrite sapp_nil. auto. Qed.
Lemma concat_app a b : String.concat "" (a ++ b) = (String.concat "" a ++ String.concat "" b)%string.
Proof. induction a as [|s a IH]; auto. change ((s :: a) ++ b) with (s :: a ++ b). rewrite !concat_cons, IH, sapp_assoc. auto. Qed.
Lemma remove_render rest : forall n acc, plain n -> Forall plain_sub acc -> Forall plain_access rest ->
  (group_text (n, acc) ++ remove_char "]" (String.concat "" (map render1 rest)))%string = join (map group_text (groups n acc rest)).
Proof.
  induction rest as [|a r IH]; intros n acc Hn Ha Hr.
  - cbn [map String.concat remove_char groups join]. apply sapp_nil.
  - inversion Hr as [|? ? Pa Hr']; subst. cbn [map]. rewrite concat_cons, remove_app. destruct a as [m|k|i]; cbn [groups].
    + assert (E : remove_char "]" (render1 (Attr m)) = ("." ++ m)%string). { unfold render1. rewrite remove_app. rewrite (remove_free (s := m)) by apply Pa. auto. }
      rewrite E. cbn [map]. change (join (group_text (n, acc) :: map group_text (groups m [] r))) with (match map group_text (groups m [] r) with [] => group_text (n, acc) | _ => (group_text (n, acc) ++ String "." (join (map group_text (groups m [] r))))%string end).
      destruct (map group_text (groups m [] r)) eqn:Q; [apply map_eq_nil in Q; apply groups_nonempty in Q; contradiction|]. rewrite <- Q, <- IH; auto. assert (E2 : group_text (m, []) = m) by (unfold group_text; cbn [fst snd map String.concat]; apply sapp_nil). rewrite E2. cbn [append]. auto.
    + assert (E : remove_char "]" (render1 (Key k)) = ("[" ++ "'" ++ k ++ "'")%string). { unfold render1. rewrite !remove_app. rewrite (remove_free (s := k)) by apply Pa. auto. }
      rewrite E. rewrite <- IH; auto; [|apply Forall_app; split; auto]. unfold group_text. cbn [fst snd]. rewrite map_app, concat_app. cbn [map String.concat sub_text]. rewrite <- !sapp_assoc. auto.
    + assert (E : remove_char "]" (render1 (Index i)) = ("[" ++ py_str i)%string). { unfold render1. rewrite !remove_app. rewrite (remove_free (s := py_str i)) by (apply free_py_str; [reflexivity|discriminate]). cbn [remove_char Ascii.eqb Bool.eqb]. rewrite sapp_nil. auto. }
      rewrite E. rewrite <- IH; auto; [|apply Forall_app; split; [auto|constructor; [exact I|auto]]]. unfold group_text. cbn [fst snd]. rewrite map_app, concat_app. cbn [map String.concat sub_text]. rewrite <- !sapp_assoc. auto.
Qed.
Lemma split_join l : l <> [] -> Forall (free ".") l -> split_on "." (join l) = l.
Proof.
  induction l as [|s l IH]; intros H F; [congruence|]. inversion F; subst. destruct l as [|t l]; [apply split_free; auto|]. change (join (s :: t :: l)) with (s ++ String "." (join (t :: l)))%string. rewrite split_cons by auto. rewrite IH; auto. discriminate.
Qed.
Lemma split_group g : plain_group g -> split_on "[" (group_text g) = fst g :: map sub_text (snd g).
Proof.
  destruct g as [n subs]. intros [Hn Hs]. unfold group_text. cbn [fst snd] in *. destruct Hn as (_ & Hn & _).
  assert (G : forall s l, free "[" s -> Forall (fun u => free "[" (sub_text u)) l -> split_on "[" (s ++ String.concat "" (map (fun u => "[" ++ sub_text u)%string l))%string = s :: map sub_text l).
  { intros s l. revert s. induction l as [|u l IH]; intros s H F; [cbn [map String.concat]; rewrite sapp_nil; apply split_free; auto|]. inversion F; subst. cbn [map]. rewrite concat_cons. change (("[" ++ sub_text u) ++ ?x)%string with (String "[" (sub_text u ++ x)). rewrite split_cons by auto. rewrite IH; auto. }
  apply G; auto. eapply Forall_impl; [|exact Hs]. intros [k|i]; cbn.
  - intros (_ & Hk & _). apply free_cons. split; [discriminate|]. apply free_app. split; auto. apply free_cons. split; [discriminate|apply free_nil].
  - intros _. apply free_py_str; [reflexivity|discriminate].
Qed.
Lemma free_dot_group g : plain_group g -> free "." (group_text g).
Proof.
  destruct g as [n subs]. intros [Hn Hs]. unfold group_text. cbn [fst snd] in *. apply free_app. split; [apply Hn|]. induction Hs as [|u l Hu Hl IH]; [apply free_nil|]. cbn [map]. rewrite concat_cons. apply free_app. split; auto. apply free_app. split; [apply free_cons; split; [discriminate|apply free_nil]|].
  destruct u as [k|i]; cbn [sub_text]. - apply free_cons. split; [discriminate|]. apply free_app. split; [apply Hu|]. apply free_cons. split; [discriminate|apply free_nil]. - apply free_py_str; [reflexivity|discriminate].
Qed.
Lemma parse_sub u : plain_sub u -> parse_item (sub_text u) = Ok (match u with SKey k => KStr k | SIdx i => KInt i end).
Proof.
  destruct u as [k|i]; intros H.
  - cbn [sub_text append parse_item]. rewrite Ascii.eqb_refl. change (String "'" (k ++ "'"))%string with (("'" ++ k) ++ String "'" "")%string. rewrite ends_app. rewrite !remove_app. rewrite (remove_free (s := k)) by apply H. cbn [remove_char Ascii.eqb Bool.eqb append]. rewrite sapp_nil. auto.
  - cbn [sub_text]. destruct (py_str_first i) as (x & r & E & N). unfold parse_item. rewrite E. destruct (Ascii.eqb_spec x "'"); [congruence|]. rewrite <- E, int_of_str. auto.
Qed.
Section Access.
Context {O : Type} (getattr : O -> string -> res O) (getitem : O -> key -> res O).
Lemma bind_assoc {A B C} (m : res A) (f : A -> res B) (g : B -> res C) : bind (bind m f) g = bind m (fun x => bind (f x) g).
Proof. destruct m; auto. Qed.
Lemma bind_ext {A B} (m : res A) (f g : A -> res B) : (forall x, f x = g x) -> bind m f = bind m g.
Proof. intros H. destruct m; cbn; auto. Qed.
Lemma follow_app p q obj : follow getattr getitem (p ++ q) obj = bind (follow getattr getitem p obj) (follow getattr getitem q).
Proof. revert obj. induction p as [|[n|k|i] p IH]; intros obj; cbn [app follow bind]; auto; rewrite bind_assoc; apply bind_ext; auto. Qed.
Lemma get_items_ok subs : Forall plain_sub subs -> forall obj, get_items getitem (map sub_text subs) obj = follow getattr getitem (map sub_access subs) obj.
Proof.
  intros H. induction H as [|u l Hu Hl IH]; intros obj; auto. cbn [map get_items]. rewrite parse_sub by auto. cbn [bind]. destruct u; cbn [sub_access follow]; apply bind_ext; auto.
Qed.
Lemma get_all_ok gs : Forall plain_group gs -> forall obj, get_all getattr getitem (map (split_on "[") (map group_text gs)) obj = follow getattr getitem (flat gs) obj.
Proof.
  intros H. induction H as [|g l Hg Hl IH]; intros obj; auto. cbn [map]. rewrite split_group by auto. cbn [get_all]. unfold flat. cbn [flat_map app follow]. apply bind_ext. intros o. rewrite get_items_ok by apply Hg. fold (flat l). rewrite follow_app. apply bind_ext. auto.
Qed.
(** C54: the getter of a path made of attribute names, quoted keys and integers, none containing a dot, bracket or apostrophe, performs exactly these accesses in this order, whatever they do *)
Theorem C54_getter_partial first rest : first <> ""%string -> plain first -> Forall plain_access rest ->
  exists getter, attritemgetter getattr getitem (render first rest) = Ok getter /\ forall obj, getter obj = follow getattr getitem (Attr first :: rest) obj.
Proof.
  intros H0 Hf Hr. pose proof (@remove_render rest first [] Hf ltac:(constructor) Hr) as E. unfold group_text at 1 in E. cbn [fst snd map String.concat] in E. rewrite sapp_nil in E.
  assert (PG : Forall plain_group (groups first [] rest)) by (apply groups_plain; auto).
  assert (ER : remove_char "]" (render first rest) = join (map group_text (groups first [] rest))). { unfold render. rewrite remove_app. rewrite (remove_free (s := first)) by apply Hf. exact E. }
  unfold attritemgetter. destruct (render first rest) as [|c s] eqn:Q. { destruct first; [congruence|discriminate]. }
  assert (Hc : Ascii.eqb c "[" = false). { destruct first as [|x first]; [congruence|]. injection Q as <- _. destruct Hf as (_ & Hf & _). apply free_cons in Hf as [Hf _]. apply Ascii.eqb_neq. auto. }
  rewrite Hc. cbn [negb passert bind]. rewrite ER. eexists. split; [reflexivity|]. intros obj. rewrite split_join.
  - rewrite get_all_ok by auto. rewrite groups_flat. auto.
  - intros K. apply map_eq_nil in K. apply groups_nonempty in K. auto.
  - apply Forall_map. eapply Forall_impl; [|exact PG]. intros g. apply free_dot_group.
Qed.
(** C54: a path cannot be empty or start with a bracket *)
Theorem C54_start : attritemgetter getattr getitem "" = Err IndexError /\ forall s, attritemgetter getattr getitem (String "[" s) = Err AssertionError.
Proof. split; reflexivity. Qed.
(** C54: an item that starts but does not end with an apostrophe is an error when the getter reaches it, before the item is accessed *)
Theorem C54_unmatched first k obj : first <> ""%string -> plain first -> plain k ->
  k <> ""%string ->
  exists getter, attritemgetter getattr getitem (first ++ "['" ++ k ++ "]") = Ok getter /\ getter obj = (_ <- getattr obj first ;; Err ValueError).
Proof.
  intros H0 Hf Hk Hn. destruct k as [|x k]; [congruence|]. unfold attritemgetter.
  assert (ER : remove_char "]" (first ++ "['" ++ String x k ++ "]")%string = (first ++ String "[" (String "'" (String x k)))%string). { rewrite !remove_app. rewrite (remove_free (s := first)) by apply Hf. rewrite (remove_free (s := String x k)) by apply Hk. cbn [remove_char Ascii.eqb Bool.eqb append]. rewrite sapp_nil. auto. }
  destruct (first ++ "['" ++ String x k ++ "]")%string as [|c s] eqn:Q. { destruct first; [congruence|discriminate]. }
  assert (Hc : Ascii.eqb c "[" = false). { destruct first as [|y first]; [congruence|]. injection Q as <- _. destruct Hf as (_ & Hf & _). apply free_cons in Hf as [Hf _]. apply Ascii.eqb_neq. auto. }
  eexists. rewrite Hc. cbn [negb passert bind]. split; [reflexivity|]. rewrite ER. rewrite split_free.
  - cbn [map]. rewrite split_cons by apply Hf. rewrite split_free by (apply free_cons; split; [discriminate|apply Hk]). cbn [get_all get_items]. apply bind_ext. intros o. cbn [parse_item]. rewrite Ascii.eqb_refl.
    assert (N : ends_with "'" (String "'" (String x k)) = false). { destruct Hk as (_ & _ & _ & Hk). change (ends_with "'" (String "'" (String x k))) with (ends_with "'" (String x k)). revert Hk. generalize (String x k). clear. induction s as [|y s IH]; auto. intros F. apply free_cons in F as [F1 F2]. cbn. destruct s; [apply Ascii.eqb_neq; auto|auto]. }
    rewrite N. auto.
  - apply free_app. split; [apply Hf|]. apply free_cons. split; [discriminate|]. apply free_cons. split; [discriminate|]. apply Hk.
Qed.
(** C54: a path ending in an empty pair of brackets gives a getter that reads the attribute and then fails with an IndexError, as the empty text between the brackets has no first character *)
Theorem C54_empty_item first obj : first <> ""%string -> plain first ->
  exists getter, attritemgetter getattr getitem (first ++ "[]")%string = Ok getter /\ getter obj = bind (getattr obj first) (fun _ => Err IndexError).
Proof.
  intros H0 Hf. unfold attritemgetter.
  assert (ER : remove_char "]" (first ++ "[]")%string = (first ++ String "[" "")%string). { rewrite !remove_app. rewrite (remove_free (s := first)) by apply Hf. auto. }
  destruct (first ++ "[]")%string as [|c s] eqn:Q. { destruct first; [congruence|discriminate]. }
  assert (Hc : Ascii.eqb c "[" = false). { destruct first as [|y first]; [congruence|]. injection Q as <- _. destruct Hf as (_ & Hf & _). apply free_cons in Hf as [Hf _]. apply Ascii.eqb_neq. auto. }
  eexists. rewrite Hc. cbn [negb passert bind]. split; [reflexivity|]. rewrite ER. rewrite split_free.
  - cbn [map]. rewrite split_cons by apply Hf. apply bind_ext. intros o. auto.
  - apply free_app. split; [apply Hf|]. apply free_cons. split; [discriminate|]. intros [|? ?] ?; discriminate.
Qed.
End Access.

(* ------------------------------------------------------------------ examples *)
(** some objects: numbers, objects with attributes, dictionaries and lists *)
Inductive ob := ONum (n : Z) | OObj (d : list (string * ob)) | ODict (d : list (string * ob)) | OList (l : list ob).
Definition ob_attr (o : ob) (n : string) : res ob := match o with OObj d => match dget d n with Some x => Ok x | None => Err AttributeError end | _ => Err AttributeError end.
Definition ob_item (o : ob) (k : key) : res ob :=
  match o, k with
  | ODict d, KStr s => match dget d s with Some x => Ok x | None => Err KeyError end
  | OList l, KInt i => match zget l (if i <? 0 then i + zlen l else i) with Some x => Ok x | None => Err IndexError end
  | _, _ => Err TypeError
  end.
Definition an_object : ob :=
  OObj [("proc", OObj [("sig", ODict [("mic", OList [ONum 1; OObj [("val", ONum 2)]; ONum 3]); ("a.b", ONum 7); ("its", ONum 8)])])].
Lemma plain_of s : forallb (fun c => negb (existsb (fun d => Ascii.eqb c d) ["."; "["; "]"; "'"]%char)) (list_ascii_of_string s) = true -> plain s.
Proof.
  intros H. assert (G : forall d, In d ["."; "["; "]"; "'"]%char -> free d s).
  { intros d Hd a b ->. rewrite forallb_forall in H. specialize (H d). assert (In d (list_ascii_of_string (a ++ String d b))). { clear. induction a; cbn; auto. } specialize (H H0). assert (existsb (fun e => Ascii.eqb d e) ["."; "["; "]"; "'"]%char = true) as E. { apply existsb_exists. exists d. split; auto. apply Ascii.eqb_refl. } rewrite E in H. discriminate. }
  unfold plain. do 3 (split; [apply G; cbn; auto|]). apply G; cbn; auto.
Qed.
Definition a_path : list access := [Attr "sig"; Key "mic"; Index (-2); Attr "val"].
Example a_path_text : render "proc" a_path = "proc.sig['mic'][-2].val"%string.
Proof. reflexivity. Qed.
(** the hypotheses of [C54_getter_partial] hold of this path *)
Example a_path_plain : "proc"%string <> ""%string /\ plain "proc" /\ Forall plain_access a_path.
Proof. split; [discriminate|]. split; [apply plain_of; reflexivity|]. unfold a_path. repeat constructor; try (apply plain_of; reflexivity). Qed.
Example a_path_runs : (g <- attritemgetter ob_attr ob_item (render "proc" a_path) ;; g an_object) = Ok (ONum 2).
Proof. reflexivity. Qed.
Example C54_empty_item_meets : "proc"%string <> ""%string /\ plain "proc" /\ (g <- attritemgetter ob_attr ob_item "proc[]" ;; g (OObj [("proc"%string, OList [])])) = Err IndexError.
Proof. split; [discriminate|]. split; [apply plain_of; reflexivity|reflexivity]. Qed.
Example C54_unmatched_meets : "proc"%string <> ""%string /\ plain "proc" /\ plain "mic" /\ "mic"%string <> ""%string.
Proof. split; [discriminate|]. split; [apply plain_of; reflexivity|]. split; [apply plain_of; reflexivity|discriminate]. Qed.
(** C54 is false of keys that contain a dot, a bracket or an apostrophe: a dot makes the getter fail, the other characters silently select another key *)
Theorem C54_keys_refuted :
  (exists k getter, attritemgetter ob_attr ob_item (render "proc" [Attr "sig"; Key k]) = Ok getter /\
     follow ob_attr ob_item [Attr "proc"; Attr "sig"; Key k] an_object = Ok (ONum 7) /\ getter an_object = Err ValueError) /\
  (forall k, k = "it's"%string \/ k = "i]ts"%string ->
     exists getter, attritemgetter ob_attr ob_item (render "proc" [Attr "sig"; Key k]) = Ok getter /\
       follow ob_attr ob_item [Attr "proc"; Attr "sig"; Key k] an_object = Err KeyError /\ getter an_object = Ok (ONum 8)).
Proof.
  split.
  - exists "a.b"%string. eexists. split; [reflexivity|]. split; reflexivity.
  - intros k [->| ->]; eexists; (split; [reflexivity|]); split; reflexivity.
Qed.
Print Assumptions C54_getter_partial.
Print Assumptions C54_start.
Print Assumptions C54_unmatched.
Print Assumptions C54_empty_item.
Print Assumptions C54_keys_refuted.
