(** Proofs about the popup lists: lists, positions, the window. *)
From Verif Require Import Base SmallModel TlModel TlSpec.
From Coq Require Import Sorted.
Local Open Scope Z_scope.

Lemma zth_nth {A} (l : list A) (i : nat) : zth l (Z.of_nat i) = nth_error l i.
Proof. unfold zth. replace (Z.of_nat i <? 0) with false by lia. now rewrite Nat2Z.id. Qed.
Lemma zth_some {A} (l : list A) i : 0 <= i < Z.of_nat (length l) -> exists x, zth l i = Some x.
Proof.
  intros H. unfold zth. replace (i <? 0) with false by lia. destruct (nth_error l (Z.to_nat i)) eqn:E; eauto.
  apply nth_error_None in E. lia.
Qed.
Lemma zth_range {A} (l : list A) i x : zth l i = Some x -> 0 <= i < Z.of_nat (length l).
Proof.
  unfold zth. destruct (i <? 0) eqn:E; [discriminate|]. intros H. assert (Z.to_nat i < length l)%nat by (apply nth_error_Some; congruence). lia.
Qed.
Lemma zth_map {A B} (f : A -> B) l i : zth (map f l) i = option_map f (zth l i).
Proof. unfold zth. destruct (i <? 0); [reflexivity|]. apply nth_error_map. Qed.
Lemma zth_app {A} (l r : list A) i x : zth l i = Some x -> zth (l ++ r) i = Some x.
Proof.
  intros H. pose proof (zth_range _ _ _ H). unfold zth in *. destruct (i <? 0); [discriminate|]. rewrite nth_error_app1 by lia. exact H.
Qed.
Lemma zth_split {A} (l : list A) i x : zth l i = Some x -> exists a b, l = a ++ x :: b /\ i = Z.of_nat (length a).
Proof.
  intros H. pose proof (zth_range _ _ _ H). unfold zth in H. replace (i <? 0) with false in H by lia.
  apply nth_error_split in H. destruct H as (a & b & -> & E). exists a, b. split; [reflexivity|lia].
Qed.
Lemma zth_mid {A} (a b : list A) x : zth (a ++ x :: b) (Z.of_nat (length a)) = Some x.
Proof. rewrite zth_nth. rewrite nth_error_app2 by lia. now rewrite Nat.sub_diag. Qed.
Lemma zseq_in n : forall i j, In j (zseq i n) <-> i <= j < i + Z.of_nat n.
Proof. induction n as [|n IH]; intros i j; cbn [zseq In]; [lia|]. rewrite IH. lia. Qed.
Lemma zseq_app n m : forall i, zseq i (n + m) = zseq i n ++ zseq (i + Z.of_nat n) m.
Proof. induction n as [|n IH]; intros i; cbn [zseq Nat.add app]; [now rewrite Z.add_0_r|]. rewrite IH. do 3 f_equal. lia. Qed.
Lemma zseq_shift n : forall i, map (fun x => x - 1) (zseq (i + 1) n) = zseq i n.
Proof. induction n as [|n IH]; intros i; cbn [zseq map]; [reflexivity|]. rewrite IH. f_equal. lia. Qed.
Lemma zseq_length n : forall i, length (zseq i n) = n.
Proof. induction n; intros i; cbn [zseq length]; auto. Qed.
Lemma is_nil_true {A} (l : list A) : is_nil l = true <-> l = [].
Proof. destruct l; cbn; split; congruence. Qed.
Lemma is_nil_false {A} (l : list A) : is_nil l = false <-> l <> [].
Proof. destruct l; cbn; split; congruence. Qed.

Lemma remove_mid {A} (a b : list A) x : remove_at (length a) (a ++ x :: b) = a ++ b.
Proof.
  unfold remove_at. rewrite firstn_app, Nat.sub_diag, firstn_all. cbn [firstn]. rewrite app_nil_r. f_equal.
  rewrite skipn_app. rewrite (skipn_all2 a) by lia. replace (S (length a) - length a)%nat with 1%nat by lia. reflexivity.
Qed.
Lemma move_mid {A} (a b r : list A) x : exists r', move_down (length (a ++ x :: b)) (length a) ((a ++ x :: b) ++ r) = (a ++ b) ++ r'.
Proof.
  unfold move_down. rewrite <- app_assoc. cbn [app]. rewrite !firstn_app, Nat.sub_diag, firstn_all. cbn [firstn]. rewrite app_nil_r.
  rewrite skipn_app, (skipn_all2 a) by lia. replace (S (length a) - length a)%nat with 1%nat by lia. cbn [skipn app].
  rewrite app_length. cbn [length]. replace (length a + S (length b) - 1 - length a)%nat with (length b) by lia.
  rewrite firstn_app, Nat.sub_diag, firstn_all. cbn [firstn]. rewrite app_nil_r. eexists. rewrite <- app_assoc. reflexivity.
Qed.
Lemma decrement_below lo hi : forall l i, (i + length l <= lo)%nat -> decrement lo hi i l = l.
Proof.
  induction l as [|x l IH]; intros i H; cbn [decrement length] in *; [reflexivity|]. rewrite IH by lia. f_equal.
  destruct (Nat.leb_spec lo i); [lia|reflexivity].
Qed.
Lemma decrement_above lo hi : forall l i, (hi <= i)%nat -> decrement lo hi i l = l.
Proof.
  induction l as [|x l IH]; intros i H; cbn [decrement] in *; [reflexivity|]. rewrite IH by lia. f_equal.
  destruct (Nat.ltb_spec i hi); [lia|]. now rewrite Bool.andb_false_r.
Qed.
Lemma decrement_mid lo hi : forall l i, (lo <= i)%nat -> (i + length l <= hi)%nat -> decrement lo hi i l = map (fun x => x - 1) l.
Proof.
  induction l as [|x l IH]; intros i H1 H2; cbn [decrement map length] in *; [reflexivity|]. rewrite IH by lia. f_equal.
  destruct (Nat.leb_spec lo i); [|lia]. destruct (Nat.ltb_spec i hi); [reflexivity|lia].
Qed.
Lemma decrement_app lo hi : forall a b i, decrement lo hi i (a ++ b) = decrement lo hi i a ++ decrement lo hi (i + length a) b.
Proof.
  induction a as [|x a IH]; intros b i; cbn [decrement app length]; [now rewrite Nat.add_0_r|]. rewrite IH. do 3 f_equal. lia.
Qed.
Lemma decrement_parts a b r hi : (hi = length a + length b)%nat -> decrement (length a) hi 0 ((a ++ b) ++ r) = (a ++ map (fun x => x - 1) b) ++ r.
Proof.
  intros ->. rewrite !decrement_app, app_length. cbn [Nat.add]. rewrite (decrement_below _ _ a), (decrement_mid _ _ b), (decrement_above _ _ r) by lia. reflexivity.
Qed.

(** ** The positions that pass the filter *)
Section Find.
Variable hit : bytes -> bytes -> bool.
Notation matches := (matches hit). Notation positions := (positions hit). Notation refine := (refine hit).

Lemma positions_app n a b : forall i, positions n (a ++ b) i = positions n a i ++ positions n b (i + Z.of_nat (length a)).
Proof.
  induction a as [|x a IH]; intros i; cbn [TlModel.positions app length]; [now rewrite Z.add_0_r|].
  replace (i + Z.of_nat (S (length a))) with (i + 1 + Z.of_nat (length a)) by lia. destruct (matches n x); rewrite IH; reflexivity.
Qed.
Lemma positions_shift n l : forall i, map (fun x => x - 1) (positions n l (i + 1)) = positions n l i.
Proof.
  induction l as [|x l IH]; intros i; cbn [TlModel.positions map]; [reflexivity|].
  destruct (matches n x); cbn [map]; rewrite IH; [f_equal; lia|reflexivity].
Qed.
Lemma positions_in n l : forall i j, In j (positions n l i) -> i <= j < i + Z.of_nat (length l).
Proof.
  induction l as [|x l IH]; intros i j; cbn [TlModel.positions length In]; [contradiction|].
  destruct (matches n x); cbn [In]; [intros [<-|H]; [lia|]|intros H]; apply IH in H; lia.
Qed.
Lemma positions_length n l : forall i, length (positions n l i) = length (filter (matches n) l).
Proof. induction l as [|x l IH]; intros i; cbn [TlModel.positions filter]; [reflexivity|]. destruct (matches n x); cbn [length]; rewrite IH; reflexivity. Qed.
Lemma filter_length_le {A} (p : A -> bool) l : (length (filter p l) <= length l)%nat.
Proof. induction l as [|x l IH]; cbn [filter length]; [lia|]. destruct (p x); cbn [length]; lia. Qed.
(** The i-th position is that of the i-th row that passes. *)
Lemma positions_split n : forall l b i j, zth (positions n l b) i = Some j ->
  exists l1 x l2, l = l1 ++ x :: l2 /\ matches n x = true /\ j = b + Z.of_nat (length l1) /\ i = Z.of_nat (length (positions n l1 b)).
Proof.
  induction l as [|x l IH]; intros b i j H; cbn [TlModel.positions] in H; [unfold zth in H; destruct (i <? 0); [discriminate|]; destruct (Z.to_nat i); discriminate|].
  destruct (matches n x) eqn:E.
  - destruct (Z.eq_dec i 0) as [->|Ni].
    + injection H as <-. exists [], x, l. cbn. split; [reflexivity|]. split; [exact E|]. split; lia.
    + pose proof (zth_range _ _ _ H). assert (zth (positions n l (b + 1)) (i - 1) = Some j) as H2.
      { unfold zth in *. replace (i <? 0) with false in H by lia. replace (i - 1 <? 0) with false by lia.
        replace (Z.to_nat i) with (S (Z.to_nat (i - 1))) in H by lia. exact H. }
      destruct (IH _ _ _ H2) as (l1 & y & l2 & -> & Hy & -> & Hi). exists (x :: l1), y, l2. split; [reflexivity|]. split; [exact Hy|].
      cbn [TlModel.positions length]. rewrite E. cbn [length]. split; lia.
  - destruct (IH _ _ _ H) as (l1 & y & l2 & -> & Hy & -> & Hi). exists (x :: l1), y, l2. split; [reflexivity|]. split; [exact Hy|].
    cbn [TlModel.positions length]. rewrite E. split; lia.
Qed.
Lemma positions_item n l i j : zth (positions n l 0) i = Some j -> zth l j = zth (filter (matches n) l) i.
Proof.
  intros H. destruct (positions_split _ _ _ _ _ H) as (l1 & x & l2 & -> & Hx & -> & ->).
  rewrite Z.add_0_l, zth_mid, filter_app. cbn [filter]. rewrite Hx, positions_length. symmetry. apply zth_mid.
Qed.
(** Taking the i-th one away *)
Lemma positions_remove n l i j : zth (positions n l 0) i = Some j ->
  positions n (remove_at (Z.to_nat j) l) 0 =
  decrement (Z.to_nat i) (length (positions n l 0) - 1) 0 (remove_at (Z.to_nat i) (positions n l 0)).
Proof.
  intros H. destruct (positions_split _ _ _ _ _ H) as (l1 & x & l2 & -> & Hx & -> & ->). rewrite Z.add_0_l, !Nat2Z.id, remove_mid.
  rewrite !positions_app. cbn [TlModel.positions]. rewrite Hx, remove_mid. set (A := positions n l1 0). set (B := positions n l2 (_ + 1)).
  rewrite app_length. cbn [length]. rewrite <- (app_nil_r (A ++ B)), decrement_parts by lia. rewrite app_nil_r. f_equal.
  unfold B. rewrite positions_shift, Z.add_0_l. reflexivity.
Qed.

Variable whole : bytes -> Prop.
Hypothesis hit_more : forall n x t, whole n -> n <> [] -> hit (n ++ x) t = true -> hit n t = true.
Lemma matches_more n x it : whole n -> n <> [] -> matches (n ++ x) it = true -> matches n it = true.
Proof.
  unfold TlModel.matches. rewrite !Bool.orb_true_iff, !existsb_exists. intros Hw Hn [H|(t & H1 & H2)]; [left; eauto|right; exists t; split; eauto].
Qed.
Lemma refine_positions n x l : whole n -> n <> [] -> refine (n ++ x) l (positions n l 0) = Some (positions (n ++ x) l 0).
Proof.
  intros Hw Hn. assert (H : forall l2 l1 b, b = Z.of_nat (length l1) -> refine (n ++ x) (l1 ++ l2) (positions n l2 b) = Some (positions (n ++ x) l2 b)).
  { induction l2 as [|y l2 IH]; intros l1 b Hb; cbn [TlModel.positions]; [reflexivity|].
    specialize (IH (l1 ++ [y]) (b + 1)). rewrite <- app_assoc in IH. cbn [app] in IH.
    specialize (IH ltac:(rewrite app_length; cbn [length]; lia)). destruct (matches n y) eqn:E.
    - cbn [TlModel.refine]. rewrite Hb at 1. rewrite zth_mid, IH. reflexivity.
    - rewrite IH. destruct (matches (n ++ x) y) eqn:E2; [|reflexivity]. apply matches_more in E2; [congruence|exact Hw|exact Hn]. }
  apply (H l [] 0). reflexivity.
Qed.
End Find.

(** ** The window *)
Definition inside (c : cfg) (s : st) : Prop :=
  0 < c_vis c /\ 0 <= t_count s /\ (if t_count s =? 0 then t_index s = 0 else 0 <= t_index s < t_count s) /\
  0 <= t_top s <= Z.max 0 (t_count s - c_vis c).
Lemma scroll_offset_range c : 0 < c_vis c -> 0 <= scroll_offset c /\ 2 * scroll_offset c <= c_vis c - 1.
Proof. intros H. unfold scroll_offset. destruct (c_offset c <=? 0) eqn:E; [lia|]. rewrite Z.quot_div_nonneg by lia. lia. Qed.
Lemma set_top_is t g s : exists g', set_top t g s = w_ign g' (w_top t s).
Proof. unfold set_top. destruct (t =? t_top s) eqn:E; [exists (t_ign s)|exists g]; [|reflexivity]. assert (t = t_top s) as -> by lia. destruct s; reflexivity. Qed.
Lemma update_top_is c s : exists t g, update_top c s = w_ign g (w_top t s).
Proof.
  assert (Hs : exists t g, s = w_ign g (w_top t s)) by (exists (t_top s), (t_ign s); destruct s; reflexivity).
  assert (H1 : forall s1, (exists t g, s1 = w_ign g (w_top t s)) -> forall t' g', exists t g, set_top t' g' s1 = w_ign g (w_top t s)).
  { intros s1 (t & g & ->) t' g'. destruct (set_top_is t' g' (w_ign g (w_top t s))) as [g2 ->]. exists t', g2. reflexivity. }
  unfold update_top. cbv zeta.
  match goal with |- context [t_ign ?x] => set (s1 := x) end.
  assert (Hs1 : exists t g, s1 = w_ign g (w_top t s)). { unfold s1. destruct (t_index s <? t_top s); [apply H1, Hs|]. destruct (_ <? _); [apply H1, Hs|exact Hs]. }
  destruct (negb (t_ign s1)); [|exact Hs1]. destruct (0 <? scroll_offset c); [|exact Hs1].
  destruct (_ <? t_top s1); [apply H1, Hs1|]. destruct (t_top s1 <? _); [apply H1, Hs1|exact Hs1].
Qed.
Lemma update_top_valid c s : inside c s -> valid c (update_top c s).
Proof.
  intros (Hv & Hc & Hi & Ht). destruct (scroll_offset_range c Hv) as [Ho1 Ho2]. unfold valid, update_top, set_top, rows. cbv zeta.
  destruct (update_top_is c s) as (t & g & E). assert (Hcount : t_count (update_top c s) = t_count s) by (rewrite E; reflexivity).
  assert (Hindex : t_index (update_top c s) = t_index s) by (rewrite E; reflexivity).
  unfold update_top, set_top, rows in *. cbv zeta in *. rewrite Hcount, Hindex. clear E. split; [exact Hi|].
  destruct (t_count s =? 0) eqn:E0; repeat (match goal with |- context [if ?b then _ else _] =>
      match b with context [if _ then _ else _] => fail 1 | _ => destruct b eqn:? end end;
      cbn [t_top t_ign t_count t_index w_ign w_top] in *); lia.
Qed.

Lemma display_some c s : (forall i, 0 <= i < t_count s -> item_at s i <> None) -> inside c s -> 0 < t_ocount s -> (t_fstr s = [] -> 0 < t_count s) ->
  exists t g x, display c s = Some (w_shown_title x (w_ign g (w_top t s))) /\ valid c (w_top t s).
Proof.
  intros Hr Hin Ho Hf0. unfold display. destruct (update_top_is c s) as (t & g & E). pose proof (update_top_valid c s Hin) as Hval.
  destruct Hin as (Hv & Hc & Hi & Ht).
  assert (((0 <? c_vis c) || negb (t_ocount s =? 0) && negb (is_nil (t_fstr s))) && ((0 <? t_count s) || negb (t_ocount s =? 0) && negb (is_nil (t_fstr s))) = true) as ->.
  { replace (0 <? c_vis c) with true by lia. cbn [orb andb]. destruct (t_fstr s); [specialize (Hf0 eq_refl); lia|]. cbn. lia. }
  cbv zeta. rewrite E in *. exists t, g, (t_title s).
  assert (Hf : forallb (fun i => match item_at (w_shown_title (t_title s) (w_ign g (w_top t s))) i with Some _ => true | None => false end)
     (rows_read c (w_shown_title (t_title s) (w_ign g (w_top t s)))) = true).
  { apply forallb_forall. intros i Hin. unfold rows_read in Hin. apply zseq_in in Hin. unfold valid in Hval. cbn [t_top t_index t_count w_shown_title w_ign w_top] in Hval, Hin.
    change (item_at (w_shown_title (t_title s) (w_ign g (w_top t s))) i) with (item_at s i).
    assert (0 <= i < t_count s) as Hi2.
    { unfold rows in Hin. cbn [t_count w_shown_title w_ign w_top] in Hin. destruct (t_count s =? 0) eqn:E0; lia. }
    specialize (Hr i Hi2). destruct (item_at s i); [reflexivity|contradiction]. }
  rewrite Hf. split; [reflexivity|exact Hval].
Qed.
