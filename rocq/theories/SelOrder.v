From Verif Require Import Base SmallModel SmallProperties SelModel SelSpec SelProofs SelSteps SelInput.
Local Open Scope Z_scope.

Lemma before_irrefl m i : ~ before m i i.
Proof. unfold before. lia. Qed.
Lemma before_trans m i j k : before m i j -> before m j k -> before m i k.
Proof. unfold before. lia. Qed.
Lemma before_total m i j : 1 <= m -> i = j \/ before m i j \/ before m j i.
Proof.
  intros Hm. unfold before. pose proof (Z.div_mod i m ltac:(lia)). pose proof (Z.div_mod j m ltac:(lia)).
  destruct (Z.eq_dec (i mod m) (j mod m)) as [E|E]; [|lia]. destruct (Z.eq_dec (i / m) (j / m)) as [F|F]; [|lia]. left. congruence.
Qed.

Lemma divmod m i : 1 <= m -> i = m * (i / m) + i mod m /\ 0 <= i mod m < m.
Proof. intros. split; [apply Z.div_mod; lia|apply Z.mod_pos_bound; lia]. Qed.
Lemma divmod_pos m i : 1 <= m -> 0 <= i -> 0 <= i / m.
Proof. intros. apply Z.div_pos; lia. Qed.

(** the line's next *)
Lemma follows_same m n i : 1 <= m -> follows m n i (i + m).
Proof.
  intros Hm. assert (E1 : (i + m) mod m = i mod m) by (replace (i + m) with (i + 1 * m) by lia; apply Z.mod_add; lia).
  assert (E2 : (i + m) / m = i / m + 1) by (replace (i + m) with (i + 1 * m) by lia; apply Z.div_add; lia).
  unfold follows, before. rewrite E1, E2. split; [lia|]. intros k Hk Hb. destruct (divmod m k Hm) as [K1 K2]. destruct (divmod m i Hm) as [I1 I2].
  set (a := i / m) in *. set (b := i mod m) in *. set (p := k / m) in *. set (q := k mod m) in *. clearbody a b p q.
  destruct Hb as [Hb|[Hb Hb2]]; [right; lia|]. destruct (Z.eq_dec p (a + 1)) as [E|E]; [left; nia|right; lia].
Qed.
(** the next line's first *)
Lemma follows_line m n i j : 1 <= m -> 0 <= i < n -> n <= i + m -> i mod m = j - 1 -> 0 < j < m -> follows m n i j.
Proof.
  intros Hm Hi Hl Hj Hjm. assert (E1 : j mod m = j) by (apply Z.mod_small; lia). assert (E2 : j / m = 0) by (apply Z.div_small; lia).
  unfold follows, before. rewrite E1, E2, Hj. split; [lia|]. intros k Hk Hb. destruct (divmod m k Hm) as [K1 K2]. destruct (divmod m i Hm) as [I1 I2].
  pose proof (divmod_pos m k Hm ltac:(lia)) as K3. rewrite Hj in I1. set (a := i / m) in *. set (p := k / m) in *. set (q := k mod m) in *. clearbody a p q.
  destruct Hb as [Hb|[Hb Hb2]]; [|nia]. destruct (Z.eq_dec q j) as [E|E]; [|right; lia]. destruct (Z.eq_dec p 0) as [F|F]; [left; nia|right; lia].
Qed.
Lemma last_spec m n i : 1 <= m -> 0 <= i < n -> n <= i + m -> i mod m = m - 1 -> is_last m n i.
Proof.
  intros Hm Hi Hl Hj k Hk. destruct (divmod m k Hm) as [K1 K2]. destruct (divmod m i Hm) as [I1 I2]. unfold before.
  rewrite Hj in *. set (a := i / m) in *. set (p := k / m) in *. set (q := k mod m) in *. clearbody a p q.
  destruct (Z.eq_dec q (m - 1)) as [E|E]; [|right; lia]. destruct (Z.eq_dec p a) as [F|F]; [left; nia|right; nia].
Qed.

Lemma follows_inj m n i1 i2 j : 1 <= m -> 0 <= i1 < n -> 0 <= i2 < n -> follows m n i1 j -> follows m n i2 j -> i1 = i2.
Proof.
  intros Hm H1 H2 [A1 A2] [B1 B2]. destruct (before_total m i1 i2 Hm) as [E|[E|E]]; [exact E| |]; exfalso.
  - destruct (A2 _ H2 E) as [->|X]; [exact (before_irrefl _ _ B1)|]. exact (before_irrefl _ _ (before_trans _ _ _ _ X B1)).
  - destruct (B2 _ H1 E) as [->|X]; [exact (before_irrefl _ _ A1)|]. exact (before_irrefl _ _ (before_trans _ _ _ _ X A1)).
Qed.
Lemma follows_fun m n i j1 j2 : 0 <= j1 < n -> 0 <= j2 < n -> follows m n i j1 -> follows m n i j2 -> j1 = j2.
Proof.
  intros H1 H2 [A1 A2] [B1 B2]. destruct (A2 _ H2 B1) as [->|X]; [reflexivity|]. destruct (B2 _ H1 A1) as [->|Y]; [reflexivity|].
  exfalso. exact (before_irrefl _ _ (before_trans _ _ _ _ X Y)).
Qed.
Lemma last_unique m n i j : 0 <= i < n -> 0 <= j < n -> is_last m n i -> is_last m n j -> i = j.
Proof.
  intros Hi Hj A B. destruct (A _ Hj) as [E|E]; [auto|]. destruct (B _ Hi) as [F|F]; [auto|]. exfalso. exact (before_irrefl _ _ (before_trans _ _ _ _ E F)).
Qed.
Lemma last_none m n i j : 0 <= j < n -> is_last m n i -> ~ before m i j.
Proof. intros Hj A B. destruct (A _ Hj) as [->|E]; [exact (before_irrefl _ _ B)|]. exact (before_irrefl _ _ (before_trans _ _ _ _ B E)). Qed.
Lemma zero_first m j : 1 <= m -> 0 <= j -> ~ before m j 0.
Proof. intros Hm Hj. unfold before. rewrite Z.mod_0_l, Z.div_0_l by lia. destruct (divmod m j Hm). pose proof (divmod_pos m j Hm Hj). lia. Qed.

Section Keys.
Context (c : cfg).

(** what the arrow across the lines does, before [navigated] *)
Lemma higher_follows wrap i M n latched j b : 1 <= M -> M <= n -> 0 <= i < n -> higher wrap i M n latched = Some (j, b) ->
  latched = false /\ 0 <= j < n /\ ((follows M n i j /\ b = false) \/ (is_last M n i /\ if wrap then j = 0 /\ b = false else j = n - 1 /\ b = true)).
Proof.
  intros HM Hn Hi E. apply higher_spec in E as (E0 & E1 & E2 & E3 & E4); auto. split; [exact E0|]. split; [exact E1|].
  pose proof (Z.mod_pos_bound i M ltac:(lia)) as B. destruct (Z.le_gt_cases n (i + M)) as [H|H].
  - destruct (Z.eq_dec (i mod M) (M - 1)) as [F|F].
    + right. split; [apply last_spec; auto|]. apply E4; auto.
    + left. destruct (E3 H ltac:(lia)) as [-> ->]. split; [|reflexivity]. apply follows_line; lia.
  - left. destruct (E2 ltac:(lia)) as [-> ->]. split; [apply follows_same; lia|reflexivity].
Qed.
Lemma higher_some wrap i M n : exists j b, higher wrap i M n false = Some (j, b).
Proof. unfold higher. destruct (_ && _); [destruct wrap|]; eauto. Qed.
Lemma lower_follows wrap i M m n : 1 <= M -> M <= n -> 1 <= m -> n <= M * m -> 0 <= i < n ->
  let j := lower wrap i M m n in 0 <= j < n /\ (follows M n j i \/ (i = 0 /\ if wrap then is_last M n j else j = 0)).
Proof.
  intros HM Hn Hm Hmm Hi. destruct (lower_spec wrap i M m n HM Hn Hm Hmm Hi) as (A & A1 & A2 & A3). cbv zeta in *. split; [exact A|].
  set (j := lower wrap i M m n) in *. clearbody j. destruct (Z.eq_dec i 0) as [->|N0].
  - right. split; [reflexivity|]. specialize (A3 eq_refl). destruct wrap; [|exact A3]. apply last_spec; lia.
  - left. destruct (Z.le_gt_cases M i) as [H|H].
    + specialize (A1 H). replace i with (j + M) by lia. apply follows_same. lia.
    + specialize (A2 ltac:(lia)). apply follows_line; lia.
Qed.

Lemma nav_index h s : s_index (navigated c h s) = s_index s /\ l_count (s_lay (navigated c h s)) = l_count (s_lay s) /\
  s_latch (navigated c h s) = s_latch s /\ s_prev (navigated c h s) = s_prev s.
Proof.
  assert (D : forall s, s_index (display c s) = s_index s /\ s_lay (display c s) = s_lay s /\ s_latch (display c s) = s_latch s /\ s_prev (display c s) = s_prev s).
  { clear. intros s. unfold display. cbv zeta. destruct (_ <=? 0); [repeat split|]. set (x := if s_exp s then true else _). set (d := Z.min _ _). clearbody x d.
    cbn [w_car s_index s_lay s_latch s_prev]. unfold update_top. cbv zeta.
    repeat match goal with |- context [if ?b then _ else _] => destruct b end; cbn [set_top w_disp w_exp s_index s_lay s_latch s_prev]; repeat split. }
  unfold navigated. destruct (D (insert_match h s)) as (D1 & D2 & D3 & D4). rewrite D1, D2, D3, D4. destruct h; cbn [insert_match]; repeat split.
Qed.
Lemma nav_lay s : s_lay (navigated c None s) = s_lay s.
Proof.
  unfold navigated. cbn [insert_match]. unfold display. cbv zeta. destruct (_ <=? 0); [reflexivity|]. set (x := if s_exp s then true else _). set (d := Z.min _ _). clearbody x d.
  unfold update_top. cbv zeta. repeat match goal with |- context [if ?b then _ else _] => destruct b end; reflexivity.
Qed.

(** the state on_input works with *)
Definition started (k : key) (s : st) : st :=
  w_ign false (if Nat.eqb (s_prev s) (key_id k) then s else w_prev (key_id k) (match k with k_down | k_right => s | _ => w_latch false s end)).
Lemma started_eq k s : s_lay (started k s) = s_lay s /\ s_index (started k s) = s_index s /\ s_top (started k s) = s_top s /\
  s_disp (started k s) = s_disp s /\ s_exp (started k s) = s_exp s /\ (s_latch s = false -> s_latch (started k s) = false).
Proof. unfold started. destruct (Nat.eqb _ _); [repeat split; auto|]. destruct k; repeat split; auto. Qed.
Lemma input_started k h s : good c s -> 0 < l_vis (s_lay s) -> good c (started k s) /\
  on_input c k h s = match k with
    | k_mouse m p0 p1 can_scroll speed => mouse c h m p0 p1 can_scroll speed (started k s)
    | k_pgup => Go (navigated c h (page_up c (started k s)))
    | k_pgdn => Go (navigated c h (page_down c (started k s)))
    | k_next => Go (navigated c h (go_next c (started k s)))
    | k_prev => Go (navigated c h (go_prev c (started k s)))
    | k_right => if c_horiz c then arrow_next c h (started k s) else arrow_higher c h (lines c s) (started k s)
    | k_down => if c_horiz c then arrow_higher c h (lines c s) (started k s) else arrow_next c h (started k s)
    | k_left => if c_horiz c then Go (navigated c h (go_prev c (started k s))) else arrow_lower c h (lines c s) (l_cols (s_lay s)) (started k s)
    | k_up => if c_horiz c then arrow_lower c h (lines c s) (l_rows (s_lay s)) (started k s) else Go (navigated c h (go_prev c (started k s)))
    | _ => on_input c k h s
    end.
Proof.
  intros G Hv. destruct (started_eq k s) as (E1 & E2 & E3 & E4 & E5 & E6). split; [apply (good_ext c s); auto|].
  assert (Hc : 0 < l_count (s_lay s)) by (destruct G; lia). unfold lines.
  destruct k; try reflexivity; unfold on_input; cbv zeta; match goal with |- context [if Nat.eqb ?a ?b then ?x else ?y] =>
    assert (E : s_lay (if Nat.eqb a b then x else y) = s_lay s) by (destruct (Nat.eqb a b); reflexivity) end; rewrite E;
    replace (l_count (s_lay s) =? 0) with false by lia; replace (l_vis (s_lay s) <=? 0) with false by lia; destruct (c_horiz c); reflexivity.
Qed.
End Keys.
