(** Common definitions: bytes, C-string helpers, decimal printing ("%u"/"%d" of a
    non-negative number), list lemmas.  No clink code is modelled here except where cited. *)
From Coq Require Export Ascii String.
From Coq Require Export List Arith ZArith NArith Lia Bool.
From Coq Require Export ZifyBool ZifyNat ZifyN.
Export ListNotations.
Open Scope list_scope.
Open Scope nat_scope.
Ltac Zify.zify_post_hook ::= Z.div_mod_to_equations.

Notation byte := ascii.
Notation bytes := (list ascii).
Definition lit (s : string) : bytes := list_ascii_of_string s.

Definition NUL : byte := ascii_of_nat 0.
Definition TAB : byte := ascii_of_nat 9.
Definition LF  : byte := ascii_of_nat 10.
Definition CR  : byte := ascii_of_nat 13.
Definition SPC : byte := " "%char.
Definition BAR : byte := "|"%char.

Fixpoint prefixb (p l : bytes) : bool :=
  match p, l with
  | [], _ => true
  | a :: p', b :: l' => Ascii.eqb a b && prefixb p' l'
  | _ :: _, [] => false
  end.

Fixpoint eqb_bytes (a b : bytes) : bool :=
  match a, b with
  | [], [] => true
  | x :: a', y :: b' => Ascii.eqb x y && eqb_bytes a' b'
  | _, _ => false
  end.

Lemma eqb_bytes_eq a b : eqb_bytes a b = true <-> a = b.
Proof.
  revert b; induction a as [|x a IH]; intros [|y b]; simpl; split; intro H; try discriminate; auto.
  - apply andb_true_iff in H as [H1 H2]. apply Ascii.eqb_eq in H1. apply IH in H2. congruence.
  - injection H as -> ->. rewrite Ascii.eqb_refl. simpl. apply IH; reflexivity.
Qed.

Lemma eqb_bytes_refl a : eqb_bytes a a = true.
Proof. apply eqb_bytes_eq; reflexivity. Qed.

Lemma eqb_bytes_neq a b : eqb_bytes a b = false <-> a <> b.
Proof.
  split; intro H.
  - intros ->. rewrite eqb_bytes_refl in H; discriminate.
  - destruct (eqb_bytes a b) eqn:E; auto. apply eqb_bytes_eq in E; contradiction.
Qed.

Lemma prefixb_iff p l : prefixb p l = true <-> exists r, l = p ++ r.
Proof.
  revert l; induction p as [|a p IH]; intros l; simpl.
  - split; eauto.
  - destruct l as [|b l]; split; intro H; try discriminate.
    + destruct H as [r Hr]; discriminate.
    + apply andb_true_iff in H as [H1 H2]. apply Ascii.eqb_eq in H1.
      apply IH in H2 as [r ->]. exists r; congruence.
    + destruct H as [r Hr]; injection Hr as -> ->. rewrite Ascii.eqb_refl; simpl.
      apply IH; eauto.
Qed.

Lemma prefixb_app p r : prefixb p (p ++ r) = true.
Proof. apply prefixb_iff; eauto. Qed.

(** ** List lemmas *)

Lemma skipn_app_exact {A} (a b : list A) n : n = length a -> skipn n (a ++ b) = b.
Proof. intros ->. rewrite skipn_app, skipn_all, Nat.sub_diag; reflexivity. Qed.

Lemma firstn_app_exact {A} (a b : list A) n : n = length a -> firstn n (a ++ b) = a.
Proof. intros ->. rewrite firstn_app, firstn_all, Nat.sub_diag; simpl. apply app_nil_r. Qed.

Lemma firstn_skipn_add {A} n m (l : list A) : firstn (n + m) l = firstn n l ++ firstn m (skipn n l).
Proof.
  revert l; induction n as [|n IH]; intros [|x l]; simpl; auto.
  - rewrite firstn_nil; auto.
  - rewrite IH; auto.
Qed.

Lemma skipn_add {A} n m (l : list A) : skipn (n + m) l = skipn m (skipn n l).
Proof.
  revert l; induction n as [|n IH]; intros [|x l]; simpl; auto.
  rewrite skipn_nil; auto.
Qed.

Lemma forallb_app_true {A} (p : A -> bool) a b :
  forallb p (a ++ b) = true <-> forallb p a = true /\ forallb p b = true.
Proof. rewrite forallb_app, andb_true_iff; reflexivity. Qed.

(** ** Decimal printing and reading *)

Definition digit (d : N) : byte := ascii_of_N (48 + d).

(** Digits of [n], most significant first; [fuel] is at least the number of digits. *)
Fixpoint dec_fuel (fuel : nat) (n : N) (acc : bytes) : bytes :=
  match fuel with
  | O => acc
  | S k => let acc' := digit (n mod 10) :: acc in
           if (n <? 10)%N then acc' else dec_fuel k (n / 10) acc'
  end.

(** printf "%u": no sign, no leading zeros, "0" for zero. *)
Definition dec (n : N) : bytes := dec_fuel (S (N.to_nat (N.size n))) n [].

Definition is_digit (c : byte) : bool :=
  (48 <=? N_of_ascii c)%N && (N_of_ascii c <=? 57)%N.

Lemma digit_is_digit d : (d < 10)%N -> is_digit (digit d) = true.
Proof.
  intro H. unfold is_digit, digit. rewrite N_ascii_embedding by lia. lia.
Qed.

Lemma digit_val d : (d < 10)%N -> (N_of_ascii (digit d) - 48 = d)%N.
Proof. intro H. unfold digit. rewrite N_ascii_embedding by lia. lia. Qed.

Lemma digit_inj a b : (a < 10)%N -> (b < 10)%N -> digit a = digit b -> a = b.
Proof. intros Ha Hb H. rewrite <- (digit_val a), <- (digit_val b) by auto. congruence. Qed.

Fixpoint undec (acc : N) (l : bytes) : N :=
  match l with
  | [] => acc
  | c :: l' => undec (acc * 10 + (N_of_ascii c - 48))%N l'
  end.

Lemma undec_app a l1 l2 : undec a (l1 ++ l2) = undec (undec a l1) l2.
Proof. revert a; induction l1 as [|c l1 IH]; intro a; simpl; auto. Qed.

Lemma dec_fuel_acc fuel n acc : dec_fuel fuel n acc = dec_fuel fuel n [] ++ acc.
Proof.
  revert n acc; induction fuel as [|k IH]; intros n acc; cbn [dec_fuel]; auto.
  destruct (n <? 10)%N; auto.
  rewrite IH. rewrite (IH (n / 10)%N [_]). rewrite <- app_assoc. reflexivity.
Qed.

Lemma pow2_ge_S k : (2 ^ N.of_nat (S k) = 2 * 2 ^ N.of_nat k)%N.
Proof. rewrite Nat2N.inj_succ, N.pow_succ_r'; reflexivity. Qed.

Lemma undec_dec_fuel fuel n : (n < 2 ^ N.of_nat fuel)%N -> undec 0 (dec_fuel (S fuel) n []) = n.
Proof.
  revert n; induction fuel as [|k IH]; intros n H.
  - assert (n = 0)%N as -> by (simpl in H; lia). reflexivity.
  - cbn [dec_fuel]. destruct (N.ltb_spec n 10) as [Hlt|Hge].
    + cbn [undec]. rewrite digit_val by (apply N.mod_upper_bound; lia).
      rewrite N.mod_small by lia. lia.
    + change (if (n / 10 <? 10)%N then digit ((n / 10) mod 10) :: [digit (n mod 10)]
        else dec_fuel k (n / 10 / 10) (digit ((n / 10) mod 10) :: [digit (n mod 10)]))
        with (dec_fuel (S k) (n / 10) [digit (n mod 10)]).
      rewrite dec_fuel_acc, undec_app, IH.
      * cbn [undec]. rewrite digit_val by (apply N.mod_upper_bound; lia). lia.
      * rewrite pow2_ge_S in H. lia.
Qed.

Lemma undec_dec n : undec 0 (dec n) = n.
Proof.
  unfold dec. apply undec_dec_fuel. rewrite N2Nat.id. apply N.size_gt.
Qed.

Lemma dec_inj a b : dec a = dec b -> a = b.
Proof. intro H. rewrite <- (undec_dec a), <- (undec_dec b). congruence. Qed.

Lemma dec_fuel_digits fuel n acc :
  forallb is_digit acc = true -> forallb is_digit (dec_fuel fuel n acc) = true.
Proof.
  revert n acc; induction fuel as [|k IH]; intros n acc H; cbn [dec_fuel]; auto.
  assert (Hd : is_digit (digit (n mod 10)) = true)
    by (apply digit_is_digit; apply N.mod_upper_bound; lia).
  destruct (n <? 10)%N; [|apply IH]; cbn [forallb]; rewrite Hd; auto.
Qed.

Lemma dec_digits n : forallb is_digit (dec n) = true.
Proof. apply dec_fuel_digits; reflexivity. Qed.

Lemma dec_nonnil n : dec n <> [].
Proof.
  unfold dec. cbn [dec_fuel]. destruct (n <? 10)%N; [discriminate|].
  rewrite dec_fuel_acc. intro H. apply app_eq_nil in H as [_ H]; discriminate.
Qed.

(** The number of decimal digits of a 32-bit value is at most ten. *)
Lemma dec_fuel_len fuel n k : (n < 10 ^ N.of_nat k)%N -> 1 <= k ->
  length (dec_fuel fuel n []) <= k.
Proof.
  revert n k; induction fuel as [|f IH]; intros n k H Hk; cbn [dec_fuel]; simpl; [lia|].
  destruct (N.ltb_spec n 10) as [Hlt|Hge]; [simpl; lia|].
  rewrite dec_fuel_acc, app_length. cbn [length].
  destruct k as [|[|k]]; [lia|simpl in H; lia|].
  assert (length (dec_fuel f (n / 10) []) <= S k); [|lia].
  apply IH; [|lia].
  rewrite (Nat2N.inj_succ (S k)), N.pow_succ_r' in H.
  apply N.div_lt_upper_bound; lia.
Qed.

Lemma dec_len n k : (n < 10 ^ N.of_nat k)%N -> 1 <= k -> length (dec n) <= k.
Proof. apply dec_fuel_len. Qed.
