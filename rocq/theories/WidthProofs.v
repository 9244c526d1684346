(** Binary search in a sorted table is membership; the widths. *)
From Verif Require Import Base WidthModel.
Open Scope N_scope.

Definition inside (c : N) (iv : N * N) : Prop := fst iv <= c <= snd iv.
(** sorted, not overlapping *)
Fixpoint sorted (tab : list (N * N)) : bool :=
  match tab with
  | [] => true
  | (a, b) :: r => (a <=? b) && match r with [] => true | (a2, _) :: _ => b <? a2 end && sorted r
  end.
Lemma sorted_nth tab : sorted tab = true -> forall i j a b a2 b2, nth_error tab i = Some (a, b) -> nth_error tab j = Some (a2, b2) -> (i < j)%nat -> a <= b /\ b < a2 /\ a2 <= b2.
Proof.
  induction tab as [|[x y] r IH]; intros H i j a b a2 b2 Hi Hj Hl; [destruct i; discriminate|]. cbn [sorted] in H.
  destruct j as [|j]; [lia|]. cbn [nth_error] in Hj. destruct i as [|i].
  - injection Hi as -> ->. destruct r as [|[x2 y2] r]; [destruct j; discriminate|]. destruct j as [|j].
    + injection Hj as -> ->. cbn [sorted] in H. lia.
    + rewrite !andb_true_iff in H. destruct H as [[H1 H2] H3]. destruct (IH H3 0%nat (S j) x2 y2 a2 b2 eq_refl Hj ltac:(lia)) as (A & B & C). lia.
  - rewrite !andb_true_iff in H. destruct H as [_ H3]. exact (IH H3 i j a b a2 b2 Hi Hj ltac:(lia)).
Qed.
Lemma sorted_self tab : sorted tab = true -> forall i a b, nth_error tab i = Some (a, b) -> a <= b.
Proof.
  induction tab as [|[x y] r IH]; intros H i a b Hi; [destruct i; discriminate|]. cbn [sorted] in H. rewrite !andb_true_iff in H. destruct H as [[H1 _] H3]. destruct i as [|i]; [injection Hi as -> ->; lia|exact (IH H3 i a b Hi)].
Qed.

Lemma bi_loop_ok c tab : sorted tab = true -> forall fuel mn mx, (0 <= mn)%Z -> (mx < Z.of_nat (length tab))%Z -> (Z.to_nat (mx - mn + 1) < fuel)%nat ->
  (forall i iv, nth_error tab i = Some iv -> inside c iv -> (mn <= Z.of_nat i <= mx)%Z) ->
  exists b, bi_loop fuel c tab mn mx = Some b /\ (b = true <-> Exists (inside c) tab).
Proof.
  intro Hs. induction fuel as [|fuel IH]; intros mn mx H0 H1 Hf Hin; [lia|]. cbn [bi_loop]. destruct (mn <=? mx)%Z eqn:E.
  - set (mid := Z.quot (mn + mx) 2). assert (Hm : (mn <= mid <= mx)%Z) by (unfold mid; rewrite Z.quot_div_nonneg by lia; lia). clearbody mid.
    replace (mid <? 0)%Z with false by lia. destruct (nth_error tab (Z.to_nat mid)) as [[a b]|] eqn:En.
    2:{ apply nth_error_None in En. lia. }
    assert (Hab : a <= b) by exact (sorted_self tab Hs _ _ _ En).
    destruct (b <? c) eqn:Eb; [|destruct (c <? a) eqn:Ea].
    + apply IH; [lia|lia|lia|]. intros i [x y] Hi Hc. pose proof (Hin _ _ Hi Hc). unfold inside in Hc. cbn in Hc. destruct (Z.le_gt_cases (mid + 1) (Z.of_nat i)) as [|Hle]; [lia|]. exfalso.
      destruct (Nat.eq_dec i (Z.to_nat mid)) as [->|Hne]; [rewrite En in Hi; injection Hi as -> ->; lia|].
      destruct (sorted_nth tab Hs i (Z.to_nat mid) x y a b Hi En ltac:(lia)) as (A & B & C). lia.
    + apply IH; [lia|lia|lia|]. intros i [x y] Hi Hc. pose proof (Hin _ _ Hi Hc). unfold inside in Hc. cbn in Hc. destruct (Z.le_gt_cases (Z.of_nat i) (mid - 1)) as [|Hle]; [lia|]. exfalso.
      destruct (Nat.eq_dec i (Z.to_nat mid)) as [->|Hne]; [rewrite En in Hi; injection Hi as -> ->; lia|].
      destruct (sorted_nth tab Hs (Z.to_nat mid) i a b x y En Hi ltac:(lia)) as (A & B & C). lia.
    + exists true. split; [reflexivity|]. split; [intros _|reflexivity]. apply Exists_exists. exists (a, b). split; [exact (nth_error_In _ _ En)|]. unfold inside. cbn. lia.
  - exists false. split; [reflexivity|]. split; [discriminate|]. intro Hx. apply Exists_exists in Hx as (iv & Hi & Hc). apply In_nth_error in Hi as [i Hi]. pose proof (Hin _ _ Hi Hc). lia.
Qed.
Theorem bisearch_ok c tab : sorted tab = true -> tab <> [] -> exists b, bisearch c tab (Z.of_nat (length tab) - 1) = Some b /\ (b = true <-> Exists (inside c) tab).
Proof.
  intros Hs Hne. unfold bisearch. destruct tab as [|[a b0] r] eqn:Et; [congruence|]. rewrite <- Et in *. assert (Hl : (1 <= length tab)%nat) by (rewrite Et; cbn; lia).
  destruct (nth_error tab (Z.to_nat (Z.of_nat (length tab) - 1))) as [[a2 b]|] eqn:En; [|apply nth_error_None in En; lia].
  destruct ((c <? a) || (b <? c)) eqn:Ec.
  - exists false. split; [reflexivity|]. split; [discriminate|]. intro Hx. apply Exists_exists in Hx as ([x y] & Hi & Hc). apply In_nth_error in Hi as [i Hi]. unfold inside in Hc. cbn in Hc.
    assert (i < length tab)%nat by (apply nth_error_Some; congruence). apply orb_true_iff in Ec as [Ec|Ec].
    + destruct i as [|i]; [rewrite Et in Hi; injection Hi as -> ->; lia|]. assert (E0 : nth_error tab 0 = Some (a, b0)) by (rewrite Et; reflexivity).
      destruct (sorted_nth tab Hs 0 (S i) a b0 x y E0 Hi ltac:(lia)) as (A & B & C). lia.
    + destruct (Nat.eq_dec i (length tab - 1)) as [->|Hn]; [replace (Z.to_nat (Z.of_nat (length tab) - 1)) with (length tab - 1)%nat in En by lia; rewrite En in Hi; injection Hi as -> ->; lia|].
      destruct (sorted_nth tab Hs i _ x y a2 b Hi En ltac:(lia)) as (A & B & C). lia.
  - apply bi_loop_ok; [exact Hs|lia|lia|lia|]. intros i iv Hi _. assert (i < length tab)%nat by (apply nth_error_Some; congruence). lia.
Qed.
Lemma found_ok c tab : sorted tab = true -> tab <> [] -> (found c tab = true <-> Exists (inside c) tab).
Proof. intros Hs Hne. destruct (bisearch_ok c tab Hs Hne) as (b & E & H). unfold found. rewrite E. exact H. Qed.

Lemma wcwidth_range ce cm c : (0 <= cm <= 2)%Z -> (-1 <= mk_wcwidth ce cm c <= 2)%Z.
Proof.
  intro H. unfold mk_wcwidth. repeat (match goal with |- context [if ?b then _ else _] => destruct b end; try lia); destruct (is_cjk_halfwidth c); cbn; lia.
Qed.
Lemma wcwidth_pos ce c : c <> 0 -> mk_wcwidth ce 1 c <> 0%Z.
Proof.
  intro H. unfold mk_wcwidth. replace (c =? 0) with false by lia. repeat (match goal with |- context [if ?b then _ else _] => destruct b end; try lia); destruct (is_cjk_halfwidth c); cbn; lia.
Qed.
Lemma wcwidth_neg ce cm c : (0 <= cm)%Z -> ((mk_wcwidth ce cm c < 0)%Z <-> 0 < c < 32 \/ 127 <= c < 160).
Proof.
  intro H. unfold mk_wcwidth. destruct (c =? 0) eqn:E0; [lia|]. destruct (c <? 32) eqn:E1; [lia|]. destruct (c <=? 126) eqn:E2; [lia|]. destruct (c <? 160) eqn:E3; [lia|].
  split; [|lia]. repeat (match goal with |- context [if ?b then _ else _] => destruct b end; try lia); destruct (is_cjk_halfwidth c); cbn; lia.
Qed.
