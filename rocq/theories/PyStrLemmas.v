(** Facts about the string primitives. *)
Require Import Verif.PyBase Verif.PyStr.
From Coq Require FinFun.
Set Implicit Arguments.
Local Open Scope string_scope.
Local Open Scope Z_scope.
Ltac Zify.zify_post_hook ::= Z.div_mod_to_equations.

Lemma sapp_assoc (a b c : string) : a ++ (b ++ c) = (a ++ b) ++ c.
Proof. induction a; simpl; congruence. Qed.
Lemma sapp_nil (a : string) : a ++ "" = a.
Proof. induction a; simpl; congruence. Qed.
Lemma sapp_length (a b : string) : String.length (a ++ b) = (String.length a + String.length b)%nat.
Proof. induction a; simpl; auto. Qed.
Lemma slen_app a b : slen (a ++ b) = slen a + slen b.
Proof. unfold slen. rewrite sapp_length. lia. Qed.
Lemma slen_nonneg a : 0 <= slen a.
Proof. unfold slen. lia. Qed.
Lemma sapp_inv_head a b c : a ++ b = a ++ c -> b = c.
Proof. induction a; simpl; auto. intros H. inversion H. auto. Qed.
Lemma substring_all s : substring 0 (String.length s) s = s.
Proof. induction s; simpl; congruence. Qed.
Lemma substring_head a b : substring 0 (String.length a) (a ++ b) = a.
Proof. induction a; simpl; [destruct b; auto|congruence]. Qed.
Lemma substring_tail a b n : n = String.length b -> substring (String.length a) n (a ++ b) = b.
Proof. intros ->. induction a; simpl; auto. apply substring_all. Qed.
Lemma sprefix_app a b n : n = slen a -> sprefix (a ++ b) n = a.
Proof. intros ->. unfold sprefix, slen. rewrite Nat2Z.id. apply substring_head. Qed.
Lemma sdrop_app a b n : n = slen a -> sdrop (a ++ b) n = b.
Proof. intros ->. unfold sdrop, slen. rewrite Nat2Z.id, sapp_length. apply substring_tail. lia. Qed.
Lemma startswith_iff s p : startswith s p = true <-> exists r, s = p ++ r.
Proof.
  unfold startswith. revert s. induction p as [|c p IH]; intros s; [split; [exists s; auto|destruct s; auto]|].
  destruct s as [|d s]; cbn [String.prefix append]; [split; [intros H; discriminate H|intros [r H]; discriminate H]|].
  destruct (ascii_dec c d) as [->|Hne].
  - rewrite IH. split; intros [r H]; exists r; [congruence|inversion H; auto].
  - split; [intros H; discriminate H|]. intros [r H]. inversion H. congruence.
Qed.

Lemma digit_ok d : 0 <= d <= 9 -> digit_val (digit d) = d /\ is_digit (digit d) = true.
Proof.
  intros H. assert (digit_val (digit d) = d) as E.
  { unfold digit_val, digit. rewrite nat_ascii_embedding by lia. lia. }
  split; auto. unfold is_digit. rewrite E. lia.
Qed.
Lemma all_digits_app a b : all_digits (a ++ b) = (all_digits a && all_digits b)%bool.
Proof. induction a; simpl; auto. rewrite IHa, andb_assoc. auto. Qed.
Lemma digits_val_app a : forall v b, digits_val v (a ++ b) = digits_val (digits_val v a) b.
Proof. induction a; simpl; auto. Qed.
Lemma str_digits_spec k : forall n acc, 0 <= n < 2 ^ Z.of_nat k -> (1 <= k)%nat ->
  exists ds, str_digits k n acc = ds ++ acc /\ all_digits ds = true /\ ds <> "" /\ digits_val 0 ds = n.
Proof.
  induction k as [|k IH]; intros n acc Hn Hk; [lia|]. cbn [str_digits]. destruct (digit_ok (d := n mod 10) ltac:(lia)) as [D1 D2]. destruct (Z.ltb_spec n 10).
  - exists (String (digit (n mod 10)) ""). cbn [append all_digits digits_val]. rewrite D1, D2. split; auto. split; auto. split; [discriminate|]. rewrite Z.mod_small by lia. lia.
  - destruct k as [|k]; [simpl in Hn; lia|].
    assert (n / 10 < 2 ^ Z.of_nat (S k)).
    { replace (Z.of_nat (S (S k))) with (1 + Z.of_nat (S k)) in Hn by lia. rewrite Z.pow_add_r in Hn by lia. lia. }
    destruct (IH (n / 10) (String (digit (n mod 10)) acc)) as (ds & E & A & N & V); [lia|lia|]. exists (ds ++ String (digit (n mod 10)) ""). rewrite E.
    split; [rewrite <- sapp_assoc; auto|]. split; [rewrite all_digits_app, A; cbn [all_digits]; rewrite D2; auto|]. split; [destruct ds; discriminate|].
    rewrite digits_val_app, V. cbn [digits_val]. rewrite D1. lia.
Qed.
Lemma py_str_nonneg n : 0 <= n -> all_digits (py_str n) = true /\ py_str n <> "" /\ digits_val 0 (py_str n) = n.
Proof.
  intros H. unfold py_str. destruct (Z.ltb_spec n 0); [lia|].
  destruct (@str_digits_spec (S (Z.to_nat (Z.log2 n))) n "") as (ds & E & A & N & V); [|lia|].
  - rewrite Nat2Z.inj_succ, Z2Nat.id by apply Z.log2_nonneg. destruct (Z.eq_dec n 0) as [->|]; [simpl; lia|]. pose proof (Z.log2_spec n ltac:(lia)). lia.
  - rewrite E, sapp_nil. auto.
Qed.
Lemma py_str_inj a b : 0 <= a -> 0 <= b -> py_str a = py_str b -> a = b.
Proof. intros Ha Hb H. destruct (py_str_nonneg Ha) as (_ & _ & <-), (py_str_nonneg Hb) as (_ & _ & <-). rewrite H. auto. Qed.
Lemma isdigit_str n : 0 <= n -> isdigit (py_str n) = true.
Proof. intros H. destruct (py_str_nonneg H) as (A & N & _). unfold isdigit. destruct (py_str n); [congruence|auto]. Qed.
Lemma py_int_str n : 0 <= n -> py_int (py_str n) = Ok n.
Proof. intros H. unfold py_int. rewrite isdigit_str by auto. destruct (py_str_nonneg H) as (_ & _ & ->). auto. Qed.
Lemma digit_not c s : is_digit c = false -> all_digits s = true -> forall a b, s <> a ++ String c b.
Proof. intros Hc Hs a b ->. rewrite all_digits_app in Hs. cbn [all_digits] in Hs. rewrite Hc, andb_false_r in Hs. discriminate. Qed.
Lemma rsplit_none c s : (forall a b, s <> a ++ String c b) -> rsplit c s = None.
Proof.
  induction s as [|x s IH]; intros H; simpl; auto. rewrite IH; [|intros a b ->; apply (H (String x a) b); auto].
  destruct (Ascii.eqb_spec x c) as [->|]; auto. exfalso. apply (H "" s). auto.
Qed.
Lemma rsplit_app c a b : (forall x y, b <> x ++ String c y) -> rsplit c (a ++ String c b) = Some (a, b).
Proof. intros H. induction a as [|x a IH]; simpl; [rewrite rsplit_none by auto; rewrite Ascii.eqb_refl; auto|rewrite IH; auto]. Qed.
Lemma rsplit_some c s a b : rsplit c s = Some (a, b) -> s = a ++ String c b /\ forall x y, b <> x ++ String c y.
Proof.
  revert a b. induction s as [|x s IH]; intros a b; simpl; [discriminate|]. destruct (rsplit c s) as [[a' b']|] eqn:Q.
  - intros H. inversion H; subst. destruct (IH _ _ eq_refl) as [-> K]. auto.
  - destruct (Ascii.eqb_spec x c) as [->|]; [|discriminate]. intros H. inversion H; subst. split; auto. intros u v ->.
    clear IH H. induction u as [|w u IHu]; simpl in Q; [destruct (rsplit c v) as [[]|]; [discriminate|]; rewrite Ascii.eqb_refl in Q; discriminate|].
    destruct (rsplit c (u ++ String c v)) as [[]|]; [discriminate|]. auto.
Qed.
(** two strings ending in digits after a separator that is not a digit *)
Lemma split_digits c a b x y : is_digit c = false -> all_digits x = true -> all_digits y = true -> a ++ String c x = b ++ String c y -> a = b /\ x = y.
Proof.
  intros Hc Hx Hy H. pose proof (@rsplit_app c a _ (@digit_not c _ Hc Hx)) as K1. pose proof (@rsplit_app c b _ (@digit_not c _ Hc Hy)) as K2. rewrite H, K2 in K1. inversion K1. auto.
Qed.

(** infinitely many different names are not all in a list *)
Lemma pigeon (cand : nat -> string) (names : list string) j : (forall a b, cand a = cand b -> a = b) -> (forall m, (m < j)%nat -> In (cand m) names) -> (j <= length names)%nat.
Proof.
  intros Hi Hm. rewrite <- (seq_length j 0), <- (map_length cand). apply NoDup_incl_length.
  - apply FinFun.Injective_map_NoDup; [exact Hi|apply seq_NoDup].
  - intros x K. apply in_map_iff in K as (m & <- & K). apply in_seq in K. apply Hm. lia.
Qed.

Lemma NoDup_snoc {A} (l : list A) x : NoDup l -> ~ In x l -> NoDup (l ++ [x])%list.
Proof. intros H N. induction H as [|y l Hy H IH]; simpl; [repeat constructor; auto|]. constructor; [|apply IH; intros K; apply N; right; auto]. intros K. apply in_app_or in K as [K|[->|[]]]; auto. apply N. left. auto. Qed.
