From Verif Require Import Base SmallModel SmallProperties SelModel SelSpec SelProofs SelSteps.
Local Open Scope Z_scope.

Lemma column_some screen pad p0 : 0 <= pad -> p0 < screen -> forall ws x1 i, 0 <= x1 <= p0 -> Forall (fun w => 0 <= w) ws -> ws <> [] ->
  column_at ws pad screen true p0 x1 i <> None.
Proof.
  intros Hp Hs. induction ws as [|w r IH]; intros x1 i Hx Hw Hne; [congruence|]. apply Forall_cons_iff in Hw as [Hw Hr].
  cbn [column_at]. cbv zeta. destruct r as [|w2 r].
  - replace ((x1 <=? p0) && (p0 <? x1 + (w + screen))) with true by lia. discriminate.
  - destruct ((x1 <=? p0) && (p0 <? x1 + (w + pad))) eqn:E; [discriminate|]. apply IH; [lia|exact Hr|discriminate].
Qed.
Lemma column_range screen pad p0 sc : forall ws x1 i j, column_at ws pad screen sc p0 x1 i = Some j -> i <= j < i + Z.of_nat (length ws).
Proof.
  induction ws as [|w r IH]; intros x1 i j; cbn [column_at]; [discriminate|]. cbv zeta.
  match goal with |- context [if ?b then _ else _] => destruct b end; [intros E; injection E as <-; cbn [length]; lia|].
  intros E. apply IH in E. cbn [length]. lia.
Qed.
Lemma hit r rows total : 1 <= rows < 32768 -> 1 <= total < 65536 -> 0 <= r < rows -> exists i, hittest r rows total = Some i /\ 0 <= i < total.
Proof.
  intros H1 H2 H3. destruct (Z.eq_dec rows 1) as [->|N1]; [exists 0; split; [reflexivity|lia]|].
  destruct (Z.eq_dec total 1) as [->|N2]. { exists 0. split; [unfold hittest; rewrite Bool.orb_true_r; reflexivity|lia]. }
  destruct (c47_hittest rows total ltac:(lia) ltac:(lia)) as (_ & _ & H). destruct (H r r ltac:(lia) ltac:(lia)) as (t1 & t2 & E1 & E2 & E3).
  exists t1. split; [exact E1|]. rewrite E1 in E2. injection E2 as <-. lia.
Qed.

Section Input.
Context (c : cfg).

Lemma mp_ok h k p0 row revert sc t s s' : good c s -> 0 < l_vis (s_lay s) -> height_ok h -> 0 <= row -> 0 <= revert -> 0 <= t -> 0 <= p0 < g_screen (l_geom (s_lay s)) ->
  (sc = false -> t = s_top s) ->
  mouse_position c h k p0 row revert sc (set_top t s) = Go s' ->
  good c s' /\ (tidy c s -> s_exp s = true -> longer h s -> row < l_rows (s_lay s) -> 
    t <= Z.max 0 (l_rows (s_lay s) - l_vis (s_lay s)) -> revert <= Z.max 0 (l_rows (s_lay s) - l_vis (s_lay s)) -> tidy c s').
Proof.
  intros G Hv Hh Hr Hv0 Ht Hp Hsc. pose proof (good_pre _ _ G) as P. pose proof (pre_grid c s P) as Gr. destruct Gr as (G1 & G2 & G3 & G4).
  unfold mouse_position. cbv zeta. cbn [s_lay set_top s_disp]. destruct (column_at _ _ _ _ _ _ _) as [i|] eqn:Ec.
  2:{ intros E. injection E as <-. destruct sc.
      - exfalso. destruct P as [_ (_ & _ & _ & _ & W1 & W2 & W3 & _) _ _]. apply column_some in Ec; [assumption|exact W2|lia|lia|exact W1|].
        intros N0. rewrite N0 in W3. cbn in W3. lia.
      - assert (Ex : set_top t s = s) by (rewrite (Hsc eq_refl); destruct s; reflexivity). rewrite Ex. split; [exact G|]. intros T _ _ _ _ _. exact T. }
  pose proof (column_range _ _ _ _ _ _ _ _ Ec) as Hi. set (idx := major_stride c (s_lay s) * row + i * minor_stride c (s_lay s)).
  assert (Hidx : 0 <= idx). { unfold idx, major_stride, minor_stride. destruct (c_horiz c); nia. }
  set (s1 := if l_count (s_lay s) <=? idx then _ else _).
  assert (M : pre c s1 /\ s_lay s1 = s_lay s /\ s_exp s1 = s_exp s /\ 0 <= s_index s1 < l_count (s_lay s) /\ 0 <= s_top s1 /\
    (s_exp s = true -> row < l_rows (s_lay s) -> t <= Z.max 0 (l_rows (s_lay s) - l_vis (s_lay s)) -> revert <= Z.max 0 (l_rows (s_lay s) - l_vis (s_lay s)) ->
     s_top s1 <= Z.max 0 (l_rows (s_lay s) - l_vis (s_lay s)))).
  { assert (Q : forall i1 t1, 0 <= i1 < l_count (s_lay s) -> 0 <= t1 -> pre c (w_index i1 (set_top t1 (w_ign true (w_index idx (set_top t s)))))).
    { intros i1 t1 H1 H2. destruct P as [P1 P2 P3 P4]. constructor; cbn [s_lay w_index set_top w_ign s_index s_top]; auto. }
    unfold s1. destruct (l_count (s_lay s) <=? idx) eqn:E.
    - split; [apply Q; lia|]. cbn [s_lay w_index set_top w_ign s_exp s_index s_top]. split; [reflexivity|]. split; [reflexivity|]. split; [lia|]. split; [lia|].
      intros Ex Hrow H1 H2. pose proof (gd_disp _ _ G Hv) as (D1 & D2 & _). specialize (D2 Ex).
      assert (Hc : match_row c (s_lay s) (l_count (s_lay s)) <= l_rows (s_lay s) - 1).
      { rewrite match_row_eq by lia. unfold rowof. destruct (c_horiz c) eqn:Eh.
        - destruct P as [P1 (_ & _ & _ & _ & _ & _ & W3) _ _]. assert (Ecol : l_cols (s_lay s) = Z.max 1 (g_fit (l_geom (s_lay s)))) by (rewrite P1; reflexivity).
          unfold idx, major_stride, minor_stride in E. rewrite Eh in E.
          assert (l_count (s_lay s) < l_cols (s_lay s) * l_rows (s_lay s)) by nia.
          assert (l_count (s_lay s) / l_cols (s_lay s) < l_rows (s_lay s)) by (apply Z.div_lt_upper_bound; lia). lia.
        - pose proof (Z.mod_pos_bound (l_count (s_lay s)) (l_rows (s_lay s)) ltac:(lia)). lia. }
      lia.
    - split. { destruct P as [P1 P2 P3 P4]. constructor; cbn [s_lay w_index set_top w_ign s_index s_top]; auto. lia. }
      cbn [s_lay w_index set_top w_ign s_exp s_index s_top]. split; [reflexivity|]. split; [reflexivity|]. split; [lia|]. split; [lia|]. auto. }
  clearbody s1. destruct M as (P1 & M1 & M2 & M3 & M4 & M5).
  intros E. assert (Es : s' = navigated c h s1) by (destruct k; congruence). subst s'. clear E.
  split; [apply good_navigated; auto|]. intros T Ex Hl Hrow H1 H2.
  (* the tidiness of s with the top of s1 *)
  set (s2 := set_top (s_top s1) s).
  assert (G2' : forall s3, s3 = s1 -> tidy c (navigated c h s3)).
  { intros s3 ->. unfold navigated. pose proof (pre_insert c h _ Hh P1) as P2.
    assert (Ki : s_top (insert_match h s1) = s_top s1 /\ s_exp (insert_match h s1) = s_exp s1 /\
                 l_rows (s_lay (insert_match h s1)) = l_rows (s_lay s1) /\ l_vis (s_lay (insert_match h s1)) <= l_vis (s_lay s1)).
    { destruct h as [x|]; [|cbn [insert_match]; repeat split; try reflexivity; lia]. unfold insert_match, update_layout.
      cbn [w_car w_ign w_lay s_top s_exp s_lay]. split; [reflexivity|]. split; [reflexivity|].
      pose proof (f_equal l_rows (pr_lay _ _ P1)) as F1. pose proof (f_equal l_vis (pr_lay _ _ P1)) as F3.
      split; [symmetry; etransitivity; [exact F1|reflexivity]|].
      etransitivity; [apply (vis_mono (l_geom (s_lay s1)) x); rewrite M1; exact Hl|]. rewrite <- F3. lia. }
    destruct Ki as (K1 & K2 & K3 & K4). apply display_tidy; [exact P2|rewrite K1, K3, M1 in *; specialize (M5 Ex Hrow H1 H2); lia|].
    rewrite K2, M2, Ex. discriminate. }
  apply G2'. reflexivity.
Qed.

Lemma mouse_ok h k p0 p1 cs sp s : good c s -> 0 < l_vis (s_lay s) -> height_ok h -> 0 <= p0 < g_screen (l_geom (s_lay s)) -> 0 <= sp ->
  mouse c h k p0 p1 cs sp s <> Undefined /\
  forall s', mouse c h k p0 p1 cs sp s = Go s' -> good c s' /\ (tidy c s -> s_exp s = true -> longer h s -> tidy c s').
Proof.
  intros G Hv Hh Hp Hsp. unfold mouse. cbv zeta.
  set (s1 := match k with drag => s | _ => _ end).
  assert (E : s_lay s1 = s_lay s /\ s_index s1 = s_index s /\ s_top s1 = s_top s /\ s_disp s1 = s_disp s /\ s_exp s1 = s_exp s)
    by (unfold s1; destruct k, (s_car s); cbn [w_bar s_lay s_index s_top s_disp s_exp]; repeat split).
  clearbody s1. destruct E as (E1 & E2 & E3 & E4 & E5).
  assert (G1 : good c s1) by (apply (good_ext c s); auto).
  assert (T1 : tidy c s -> tidy c s1) by (unfold tidy; rewrite E1, E3, E5; auto).
  pose proof (good_pre _ _ G1) as P. pose proof (pre_grid c s1 P) as (B1 & B2 & B3 & B4). rewrite <- E1, <- E4 in *. rewrite <- E5.
  pose proof (gd_disp _ _ G1 Hv) as (D1 & D2 & _). pose proof (gd_top _ _ G1) as Ht.
  assert (Hlg : longer h s -> longer h s1) by (unfold longer; rewrite E1; auto).
  destruct (s_bar s1) eqn:Eb.
  - assert (Hrow : 0 <= Z.min (Z.max p1 0) (s_disp s1 - 1) < s_disp s1) by lia.
    assert (Hd : 1 <= s_disp s1 < 32768). { pose proof (vis_small c _ _ (pr_geom _ _ P)) as Hvs. rewrite <- (pr_lay _ _ P) in Hvs. lia. }
    assert (Hrr : 1 <= l_rows (s_lay s1) < 65536). { destruct (pr_geom _ _ P) as (_ & _ & X & _). rewrite <- (pr_lay _ _ P) in X. lia. }
    destruct (hit _ _ _ Hd Hrr Hrow) as (i & Ei & Hi). rewrite Ei. split; [discriminate|]. intros s' E. injection E as <-.
    set (idx := i * major_stride c (s_lay s1)). assert (Hx : 0 <= idx < l_count (s_lay s1)).
    { unfold idx, major_stride. destruct (c_horiz c); nia. }
    clearbody idx. set (t := Z.min (Z.max (idx - s_disp s1 ÷ 2) 0) (l_rows (s_lay s1) - s_disp s1)).
    assert (Ht0 : 0 <= t <= l_rows (s_lay s1) - s_disp s1) by (unfold t; lia). clearbody t.
    assert (P2 : pre c (set_top t (w_index idx s1))).
    { destruct P as [P1 P2 P3 P4]. constructor; cbn [s_lay w_index set_top s_index s_top]; auto. lia. }
    split; [apply good_navigated; auto|]. intros T Ex Hl.
    assert (M : moved c s1 (set_top t (w_index idx s1)) \/ True) by auto. clear M.
    (* via a state that is already at t *)
    pose proof (T1 T Hv) as [T2 _]. specialize (D2 Ex).
    unfold navigated. pose proof (pre_insert c h _ Hh P2) as P3.
    assert (Ki : s_top (insert_match h (set_top t (w_index idx s1))) = t /\ s_exp (insert_match h (set_top t (w_index idx s1))) = s_exp s1 /\
                 l_rows (s_lay (insert_match h (set_top t (w_index idx s1)))) = l_rows (s_lay s1) /\
                 l_vis (s_lay (insert_match h (set_top t (w_index idx s1)))) <= l_vis (s_lay s1)).
    { specialize (Hlg Hl). destruct h as [x|]; [|cbn [insert_match set_top w_index s_top s_exp s_lay]; repeat split; try reflexivity; lia]. unfold insert_match, update_layout.
      cbn [w_car w_ign w_lay s_top s_exp s_lay set_top w_index]. split; [reflexivity|]. split; [reflexivity|].
      pose proof (f_equal l_rows (pr_lay _ _ P)) as F1. pose proof (f_equal l_vis (pr_lay _ _ P)) as F3.
      split; [symmetry; etransitivity; [exact F1|reflexivity]|].
      etransitivity; [apply (vis_mono (l_geom (s_lay s1)) x); exact Hlg|]. rewrite <- F3. lia. }
    destruct Ki as (K1 & K2 & K3 & K4). apply display_tidy; [exact P3|rewrite K1, K3; lia|]. rewrite K2, Ex. discriminate.
  - assert (Eself : set_top (s_top s1) s1 = s1) by (destruct s1; reflexivity).
    destruct ((0 <=? p1) && (p1 <? s_disp s1)) eqn:E6.
    + split; [unfold mouse_position; cbv zeta; destruct (column_at _ _ _ _ _ _ _), k; discriminate|].
      intros s' E. rewrite <- Eself in E at 3. apply mp_ok in E; auto; try lia. destruct E as [E7 E8]. split; [exact E7|].
      intros T Ex Hl. pose proof (T1 T Hv) as [T2 _]. specialize (D2 Ex). apply E8; auto; lia.
    + destruct (p1 <? 0) eqn:E7.
      * destruct k; [split; [discriminate|intros s' E; discriminate]..|].
        destruct (cs && (0 <? s_top s1)) eqn:E8; [|split; [discriminate|intros s' E; injection E as <-; split; [exact G1|intros T _ _; exact (T1 T)]]].
        split; [unfold mouse_position; cbv zeta; destruct (column_at _ _ _ _ _ _ _); discriminate|].
        intros s' E. apply mp_ok in E; auto; try lia. destruct E as [E9 E10]. split; [exact E9|].
        intros T Ex Hl. pose proof (T1 T Hv) as [T2 _]. specialize (D2 Ex). apply E10; auto; lia.
      * destruct (s_exp s1) eqn:Ex1; cbn [negb].
        -- specialize (D2 eq_refl). destruct k; try (split; [discriminate|intros s' E; injection E as <-; split; [exact G1|intros T _ _; exact (T1 T)]]).
           destruct (cs && (s_top s1 + s_disp s1 <? l_rows (s_lay s1))) eqn:E8; [|split; [discriminate|intros s' E; injection E as <-; split; [exact G1|intros T _ _; exact (T1 T)]]].
           split; [unfold mouse_position; cbv zeta; destruct (column_at _ _ _ _ _ _ _); discriminate|].
           intros s' E. apply mp_ok in E; auto; try lia. destruct E as [E9 E10]. split; [exact E9|].
           intros T _ Hl. pose proof (T1 T Hv) as [T2 _]. apply E10; auto; lia.
        -- split; [discriminate|]. intros s' E. injection E as <-. split; [|discriminate].
           apply good_display. destruct P as [P1 P2 P3 P4]. constructor; auto.
Qed.

Theorem step_ok s k h : good c s -> input_ok c s k h ->
  on_input c k h s <> Undefined /\
  forall s', on_input c k h s = Go s' -> good c s' /\ (tidy c s -> (calm k = false -> s_exp s = true) -> longer h s -> tidy c s').
Proof.
  intros G [Hh Hk]. unfold on_input. cbv zeta.
  set (s1 := if Nat.eqb (s_prev s) (key_id k) then s else _).
  assert (E : s_lay s1 = s_lay s /\ s_index s1 = s_index s /\ s_top s1 = s_top s /\ s_disp s1 = s_disp s /\ s_exp s1 = s_exp s).
  { unfold s1. destruct (Nat.eqb _ _); [repeat split|]. destruct k; cbn [w_prev w_latch s_lay s_index s_top s_disp s_exp]; repeat split. }
  clearbody s1. rewrite <- (proj1 E) in Hk.
  assert (Hlg0 : longer h s -> longer h s1) by (unfold longer; rewrite (proj1 E); auto).
  destruct E as (E1 & E2 & E3 & E4 & E5).
  assert (G1 : good c s1) by (apply (good_ext c s); auto).
  assert (T1 : tidy c s -> tidy c s1) by (unfold tidy; rewrite E1, E3, E5; auto).
  rewrite <- E5. clear G E1 E2 E3 E4 E5. rename s into s0. rename s1 into s.
  destruct (l_count (s_lay s) =? 0) eqn:E0; [split; [discriminate|intros s' E; discriminate]|].
  destruct (l_vis (s_lay s) <=? 0) eqn:E1; [split; [discriminate|intros s' E; discriminate]|].
  assert (Hv : 0 < l_vis (s_lay s)) by lia.
  assert (G2 : good c (w_ign false s)) by (apply (good_ext c s); auto).
  set (s2 := w_ign false s) in *. change (s_lay s) with (s_lay s2) in *. change (s_exp s) with (s_exp s2).
  assert (T2 : tidy c s0 -> tidy c s2) by exact T1. assert (Hlg : longer h s0 -> longer h s2) by exact Hlg0. clearbody s2. clear T1 Hlg0 G1 s E0 E1.
  rename s2 into s. pose proof (good_pre _ _ G2) as P. pose proof (gd_top _ _ G2) as Ht. pose proof (gd_index _ _ G2) as Hi.
  assert (NAV : forall s1, moved c s s1 -> Go (navigated c h s1) <> Undefined /\ forall s', Go (navigated c h s1) = Go s' -> good c s' /\ (tidy c s0 -> (calm k = false -> s_exp s = true) -> longer h s0 -> tidy c s')).
  { intros s1 M. split; [discriminate|]. intros s' E. injection E as <-. destruct (navigated_ok c h s s1 G2 Hh M) as [A B]. split; [exact A|]. auto. }
  assert (SAME : Go s <> Undefined /\ forall s', Go s = Go s' -> good c s' /\ (tidy c s0 -> (calm k = false -> s_exp s = true) -> longer h s0 -> tidy c s')).
  { split; [discriminate|]. intros s' E. injection E as <-. auto. }
  assert (NEXT : moved c s (go_next c s)) by (pose proof (next_range c s G2); unfold go_next in *; cbv zeta in *; apply moved_index; auto).
  assert (PREV : moved c s (go_prev c s)) by (pose proof (prev_range c s G2); unfold go_prev in *; cbv zeta in *; apply moved_index; auto).
  assert (ANEXT : moved c s (go_next c (if negb (c_wrap c) && (s_index s =? l_count (s_lay s) - 1) then w_latch true s else s))).
  { destruct (_ && _); [|exact NEXT]. change (go_next c (w_latch true s)) with (w_latch true (go_next c s)). apply moved_latch. exact NEXT. }
  destruct (lines_ok c s P) as (L1 & L2 & L3). unfold lines in *.
  assert (LOW : moved c s (w_index (lower (c_wrap c) (s_index s) (if c_horiz c then l_cols (s_lay s) else l_rows (s_lay s))
                  (if c_horiz c then l_rows (s_lay s) else l_cols (s_lay s)) (l_count (s_lay s))) s)).
  { apply moved_index; [exact Ht|]. apply lower_spec; auto; lia. }
  assert (HIGH : forall j b, higher (c_wrap c) (s_index s) (if c_horiz c then l_cols (s_lay s) else l_rows (s_lay s)) (l_count (s_lay s)) (s_latch s) = Some (j, b) ->
                  moved c s (w_latch b (w_index j s))).
  { intros j b E. apply moved_index_latch; [exact Ht|]. apply higher_spec in E; [|lia|lia|lia]. lia. }
  destruct k; try exact SAME.
  - apply NAV, NEXT.
  - apply NAV, PREV.
  - destruct (c_horiz c); [unfold arrow_lower; apply NAV, LOW|apply NAV, PREV].
  - destruct (c_horiz c); [unfold arrow_higher; destruct (higher _ _ _ _ _) as [[j b]|] eqn:E; [apply NAV, HIGH; reflexivity|exact SAME]|apply NAV, ANEXT].
  - destruct (c_horiz c); [apply NAV, PREV|unfold arrow_lower; apply NAV, LOW].
  - destruct (c_horiz c); [apply NAV, ANEXT|unfold arrow_higher; destruct (higher _ _ _ _ _) as [[j b]|] eqn:E; [apply NAV, HIGH; reflexivity|exact SAME]].
  - destruct (c_horiz c); [apply NAV, PREV|unfold arrow_lower; apply NAV, LOW].
  - destruct (c_horiz c); [apply NAV, ANEXT|unfold arrow_higher; destruct (higher _ _ _ _ _) as [[j b]|] eqn:E; [apply NAV, HIGH; reflexivity|exact SAME]].
  - apply NAV. apply page_up_moved; auto.
  - apply NAV. apply page_down_moved; auto.
  - apply NAV. apply moved_index; auto. lia.
  - apply NAV. apply last_moved; auto.
  - destruct Hk as [Hp Hsp]. destruct (mouse_ok h k p0 p1 can_scroll speed s G2 Hv Hh Hp Hsp) as [A B]. split; [exact A|].
    intros s' E. destruct (B s' E) as [B1 B2]. split; [exact B1|]. intros T Hc Hl. apply B2; auto.
  - split; [discriminate|]. intros s' E. injection E as <-. destruct (wheel_ok c true n s G2 Hv Hk) as [A B]. auto.
  - split; [discriminate|]. intros s' E. injection E as <-. destruct (wheel_ok c false n s G2 Hv Hk) as [A B]. auto.
  - destruct g as [g|]; [|exact SAME]. split; [discriminate|]. intros s' E. injection E as <-.
    set (t := Z.min _ _). assert (Ht2 : 0 <= t <= Z.max 0 (l_rows (layout g (l_count (s_lay s))) - l_vis (layout g (l_count (s_lay s))))) by (unfold t, update_layout; cbn [w_car w_ign w_lay s_lay layout l_rows l_vis]; cbv zeta; lia). clearbody t.
    assert (P2 : pre c (set_top t (update_layout g (l_count (s_lay s)) s))).
    { constructor; unfold update_layout; cbn [set_top w_car w_ign w_lay s_lay s_index s_top]; auto; try (cbn [layout l_count]; lia). }
    split; [apply good_display; exact P2|]. intros T Hc Hl. apply display_tidy; [exact P2| |].
    + unfold update_layout. cbn [set_top w_car w_ign w_lay s_lay s_top]. lia.
    + unfold update_layout. cbn [set_top w_car w_ign w_lay s_exp]. rewrite (Hc eq_refl). discriminate.
  - destruct Hk as [Hk ->]. destruct (count <=? 0) eqn:E2; [split; [discriminate|intros s' E; discriminate]|].
    split; [discriminate|]. intros s' E. injection E as <-. cbn [insert_match].
    assert (P2 : pre c (update_layout g count (w_ign false (w_index 0 (set_top 0 s))))).
    { constructor; unfold update_layout; cbn [set_top w_car w_ign w_lay w_index s_lay s_index s_top]; auto; try lia; [apply Hk; lia|cbn [layout l_count]; lia]. }
    split; [apply good_display; exact P2|]. intros _ _ _. apply display_tidy; [exact P2| |].
    + unfold update_layout. cbn [set_top w_car w_ign w_lay w_index s_lay s_top]. lia.
    + unfold update_layout. cbn [set_top w_car w_ign w_lay w_index s_lay s_top]. intros _. left. reflexivity.
Qed.

Lemma activate_ok g n x h s0 s : geom_ok c g n -> height_ok h -> activate c g n x h s0 = Some s -> good c s /\ tidy c s.
Proof.
  intros Hg Hh. unfold activate. cbv zeta. destruct (_ || _) eqn:E; [discriminate|]. intros E2. injection E2 as <-.
  set (s1 := w_ign false (w_index 0 (set_top 0 (update_layout g n (w_exp x s0))))).
  assert (P : pre c s1). { constructor; unfold s1, update_layout; cbn [w_ign w_index set_top w_car w_lay s_lay s_index s_top]; auto; try lia. cbn [layout l_count]. lia. }
  pose proof (pre_insert c h _ Hh P) as P2. split; [apply good_navigated; auto|]. unfold navigated.
  assert (Et : s_top (insert_match h s1) = 0) by (destruct h; reflexivity).
  apply display_tidy; [exact P2|rewrite Et; lia|intros _; left; exact Et].
Qed.

Theorem reach_good s : reach c s -> good c s.
Proof.
  induction 1 as [g n x h s0 s Hg Hh E|s k h s' _ IH Hk E|s g _ IH Hg].
  - eapply activate_ok; eauto.
  - destruct (step_ok s k h IH Hk) as [_ H]. apply H. exact E.
  - unfold on_resize. apply good_display. pose proof (good_pre _ _ IH) as [P1 P2 P3 P4].
    constructor; unfold update_layout; cbn [w_car w_ign w_lay s_lay s_index s_top]; auto.
Qed.
Theorem keyed_tidy s : keyed c s -> reach c s /\ tidy c s.
Proof.
  induction 1 as [g n x h s0 s Hg Hh E|s k h s' _ [IH1 IH2] Hk Hc Hl E].
  - split; [eapply r_activate; eauto|]. eapply activate_ok; eauto.
  - split; [eapply r_input; eauto|]. destruct (step_ok s k h (reach_good _ IH1) Hk) as [_ H]. apply (H s' E); auto.
Qed.
End Input.
