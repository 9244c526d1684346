(** C72, C73: the selection in the list of clink-select-complete. *)
From Verif Require Import Base SmallModel SmallProperties SelModel SelSpec SelProofs SelSteps SelInput SelOrder.
Local Open Scope Z_scope.

(** ** C72 *)

(** Whatever keys are pressed, whatever the mouse does and however the window is resized, a match of the list is selected
    and nothing undefined happens. *)
Theorem selection_valid : forall c s, reach c s ->
  0 <= s_index s < l_count (s_lay s) /\ forall k h, input_ok c s k h -> on_input c k h s <> Undefined.
Proof.
  intros c s H. pose proof (reach_good c s H) as G. split; [apply G|]. intros k h Hk. apply (step_ok c s k h G Hk).
Qed.
Print Assumptions selection_valid.

(** The selected match is one of those shown, and what is shown fits. *)
Theorem selection_shown : forall c s, reach c s -> 0 < l_vis (s_lay s) ->
  seen c s (s_index s) /\ 1 <= s_disp s <= l_vis (s_lay s).
Proof.
  intros c s H Hv. pose proof (reach_good c s H) as G. pose proof (good_pre _ _ G) as P. pose proof (pre_grid c s P) as (G1 & G2 & G3 & G4).
  pose proof (gd_disp _ _ G Hv) as (D & _). pose proof (gd_view _ _ G Hv) as V. pose proof (gd_index _ _ G) as Hi. split; [|lia].
  rewrite match_row_eq in V by lia. unfold seen, cell, major_stride, minor_stride. unfold rowof in V. destruct (c_horiz c).
  - exists (s_index s / l_cols (s_lay s) - s_top s), (s_index s mod l_cols (s_lay s)). split; [lia|]. split; [apply Z.mod_pos_bound; lia|]. cbv zeta.
    replace ((s_top s + (s_index s / l_cols (s_lay s) - s_top s)) * l_cols (s_lay s) + s_index s mod l_cols (s_lay s) * 1) with (s_index s).
    + replace (l_count (s_lay s) <=? s_index s) with false by lia. reflexivity.
    + pose proof (Z.div_mod (s_index s) (l_cols (s_lay s)) ltac:(lia)). nia.
  - exists (s_index s mod l_rows (s_lay s) - s_top s), (s_index s / l_rows (s_lay s)). split; [lia|].
    pose proof (Z.div_mod (s_index s) (l_rows (s_lay s)) ltac:(lia)). split; [split; [apply Z.div_pos; lia|apply Z.div_lt_upper_bound; lia]|]. cbv zeta.
    replace ((s_top s + (s_index s mod l_rows (s_lay s) - s_top s)) * 1 + s_index s / l_rows (s_lay s) * l_rows (s_lay s)) with (s_index s) by nia.
    replace (l_count (s_lay s) <=? s_index s) with false by lia. reflexivity.
Qed.
Print Assumptions selection_shown.

(** No match is shown in two places. *)
Theorem shown_distinct : forall c s, reach c s -> 0 < l_vis (s_lay s) ->
  forall r1 k1 r2 k2 i, 0 <= r1 < s_disp s -> 0 <= r2 < s_disp s -> 0 <= k1 < l_cols (s_lay s) -> 0 <= k2 < l_cols (s_lay s) ->
    cell c s r1 k1 = Some i -> cell c s r2 k2 = Some i -> r1 = r2 /\ k1 = k2.
Proof.
  intros c s H Hv. pose proof (reach_good c s H) as G. pose proof (good_pre _ _ G) as P. pose proof (pre_grid c s P) as (G1 & G2 & G3 & G4).
  pose proof (gd_disp _ _ G Hv) as (D & _ & _). unfold cell, major_stride, minor_stride. cbv zeta.
  intros r1 k1 r2 k2 i Hr1 Hr2 Hk1 Hk2 E1 E2. destruct (l_count (s_lay s) <=? _) in E1; [discriminate|]. destruct (l_count (s_lay s) <=? _) in E2; [discriminate|].
  injection E1 as E1. injection E2 as E2. rewrite <- E2 in E1. clear E2 i. destruct (c_horiz c).
  - set (a := s_top s + r1) in *. set (b := s_top s + r2) in *. set (C := l_cols (s_lay s)) in *.
    assert (Ea : (a * C + k1 * 1) / C = a) by (rewrite Z.div_add_l by lia; rewrite Z.div_small by lia; lia).
    assert (Eb : (b * C + k2 * 1) / C = b) by (rewrite Z.div_add_l by lia; rewrite Z.div_small by lia; lia).
    rewrite E1 in Ea. assert (a = b) by lia. split; [lia|]. nia.
  - set (R := l_rows (s_lay s)) in *. assert (E : r1 + k1 * R = r2 + k2 * R) by lia. clear E1.
    assert (Ea : (r1 + k1 * R) mod R = r1) by (rewrite Z.mod_add by lia; rewrite Z.mod_small; lia).
    assert (Eb : (r2 + k2 * R) mod R = r2) by (rewrite Z.mod_add by lia; rewrite Z.mod_small; lia).
    rewrite E in Ea. assert (r1 = r2) by lia. split; [lia|]. nia.
Qed.
Print Assumptions shown_distinct.

(** While the window keeps its size and the line does not get shorter, keys never leave the list scrolled past its end (the
    assertions of update_top and update_display): each line shown is a line of the list, the preview shows the first lines,
    and all matches are shown if there is room for all. *)
Theorem never_past_end : forall c s, keyed c s -> 0 < l_vis (s_lay s) ->
  s_top s <= Z.max 0 (l_rows (s_lay s) - l_vis (s_lay s)) /\ s_top s + s_disp s <= l_rows (s_lay s) /\
  (s_exp s = false -> s_top s = 0) /\
  (forall r k i, 0 <= r < s_disp s -> 0 <= k < l_cols (s_lay s) -> cell c s r k = Some i ->
     (if c_horiz c then i / l_cols (s_lay s) else i mod l_rows (s_lay s)) = s_top s + r) /\
  (s_disp s = l_rows (s_lay s) -> forall i, 0 <= i < l_count (s_lay s) -> seen c s i).
Proof.
  intros c s H Hv. destruct (keyed_tidy c s H) as [H1 H2]. pose proof (reach_good c s H1) as G. pose proof (good_pre _ _ G) as P. pose proof (pre_grid c s P) as (G1 & G2 & G3 & G4).
  pose proof (gd_disp _ _ G Hv) as (D & D2 & D3). pose proof (gd_top _ _ G) as Ht. destruct (H2 Hv) as [T1 T2]. split; [exact T1|].
  assert (T3 : s_top s + s_disp s <= l_rows (s_lay s)) by lia. split; [exact T3|]. split; [exact T2|].
  unfold seen, cell, major_stride, minor_stride. cbv zeta. split.
  - intros r k i Hr Hk E. destruct (l_count (s_lay s) <=? _) in E; [discriminate|]. injection E as <-. destruct (c_horiz c).
    + rewrite Z.div_add_l by lia. rewrite Z.div_small by lia. lia.
    + rewrite Z.mod_add by lia. rewrite Z.mod_small; lia.
  - intros Ed i Hi. assert (E0 : s_top s = 0) by lia. rewrite E0, Ed. destruct (c_horiz c).
    + exists (i / l_cols (s_lay s)), (i mod l_cols (s_lay s)).
      split; [split; [apply Z.div_pos; lia|apply Z.div_lt_upper_bound; lia]|]. split; [apply Z.mod_pos_bound; lia|].
      replace ((0 + i / l_cols (s_lay s)) * l_cols (s_lay s) + i mod l_cols (s_lay s) * 1) with i by (pose proof (Z.div_mod i (l_cols (s_lay s)) ltac:(lia)); nia).
      replace (l_count (s_lay s) <=? i) with false by lia. reflexivity.
    + exists (i mod l_rows (s_lay s)), (i / l_rows (s_lay s)).
      split; [apply Z.mod_pos_bound; lia|]. split; [split; [apply Z.div_pos; lia|apply Z.div_lt_upper_bound; lia]|].
      replace ((0 + i mod l_rows (s_lay s)) * 1 + i / l_rows (s_lay s) * l_rows (s_lay s)) with i by (pose proof (Z.div_mod i (l_rows (s_lay s)) ltac:(lia)); nia).
      replace (l_count (s_lay s) <=? i) with false by lia. reflexivity.
Qed.
Print Assumptions never_past_end.

(** A click on a match that is shown selects that match; a click past the last match selects the last. *)
Lemma column_found pad screen p0 : forall col ws x1 i, Forall (fun w => 0 <= w) ws -> 0 <= pad -> (col < length ws)%nat -> 0 <= x1 -> x1 + col_start ws pad col <= p0 ->
  p0 < (if (S col =? length ws)%nat then screen else x1 + col_start ws pad col + nth col ws 0) ->
  column_at ws pad screen false p0 x1 i = Some (i + Z.of_nat col).
Proof.
  induction col as [|col IH]; intros ws x1 i Hw Hp Hl H0 H1 H2; (destruct ws as [|w r]; [cbn in Hl; lia|]); apply Forall_cons_iff in Hw as [Hw Hr]; cbn [column_at]; cbv zeta.
  - cbn [col_start nth length] in *. destruct r as [|w2 r].
    + cbn [length] in H2. replace (1 =? 1)%nat with true in H2 by reflexivity. replace ((x1 <=? p0) && (p0 <? x1 + (w + screen))) with true by lia. f_equal. lia.
    + replace (1 =? S (length (w2 :: r)))%nat with false in H2 by reflexivity. replace ((x1 <=? p0) && (p0 <? x1 + w)) with true by lia. f_equal. lia.
  - cbn [col_start nth length] in *. assert (Hc : 0 <= col_start r pad col). { clear - Hr Hp. revert r Hr. induction col as [|n IH]; intros r Hr; [destruct r; cbn; lia|]. destruct r as [|a r]; [cbn; lia|]. apply Forall_cons_iff in Hr as [Ha Hr]. cbn [col_start]. specialize (IH r Hr). lia. }
    destruct r as [|w2 r]; [cbn in Hl; lia|]. replace ((x1 <=? p0) && (p0 <? x1 + w)) with false by lia.
    rewrite (IH (w2 :: r) (x1 + w + pad) (i + 1)); [f_equal; lia|exact Hr|exact Hp|lia|lia|lia|].
    replace (S (S col) =? S (length (w2 :: r)))%nat with (S col =? length (w2 :: r))%nat in H2 by reflexivity.
    destruct (S col =? _)%nat; lia.
Qed.

Theorem click_selects : forall c s h col x row cs sp s', reach c s -> 0 < l_vis (s_lay s) -> height_ok h ->
  in_column (l_geom (s_lay s)) col x -> 0 <= row < s_disp s ->
  (if s_car s then x <> g_screen (l_geom (s_lay s)) - 2 else s_bar s = false) ->
  on_input c (k_mouse left_click x row cs sp) h s = Go s' ->
  s_index s' = match cell c s row (Z.of_nat col) with Some i => i | None => l_count (s_lay s) - 1 end.
Proof.
  intros c s h col x row cs sp s' H Hv Hh (Hc1 & Hc2 & Hc3) Hr Hb. pose proof (reach_good c s H) as G. pose proof (good_pre _ _ G) as P.
  destruct (input_started c (k_mouse left_click x row cs sp) h s G Hv) as [_ E]. rewrite E. clear E.
  set (s1 := started (k_mouse left_click x row cs sp) s).
  assert (E : s_lay s1 = s_lay s /\ s_top s1 = s_top s /\ s_disp s1 = s_disp s /\ s_car s1 = s_car s /\ s_bar s1 = s_bar s).
  { unfold s1, started. destruct (s_prev s =? _)%nat; repeat split; reflexivity. }
  clearbody s1. destruct E as (E1 & E2 & E3 & E4 & E5). unfold mouse. cbv zeta. rewrite E1, E3, E4.
  set (s2 := if s_car s then _ else s1).
  assert (F : s_lay s2 = s_lay s /\ s_top s2 = s_top s /\ s_disp s2 = s_disp s /\ s_bar s2 = false).
  { unfold s2. destruct (s_car s); cbn [w_bar s_lay s_top s_disp s_bar]; rewrite ?E1, ?E2, ?E3, ?E5; [|auto]. split; [reflexivity|]. split; [reflexivity|]. split; [reflexivity|]. lia. }
  clearbody s2. destruct F as (F1 & F2 & F3 & F4). rewrite F4. replace ((0 <=? row) && (row <? s_disp s)) with true by lia.
  destruct (pr_geom _ _ P) as (_ & _ & _ & _ & W1 & W2 & W3).
  unfold mouse_position. cbv zeta. rewrite F1, F2, F3. rewrite (column_found (g_pad (l_geom (s_lay s))) (g_screen (l_geom (s_lay s))) x col _ 0 0 W1 W2 Hc1 ltac:(lia) ltac:(lia)) by (destruct (S col =? _)%nat; lia).
  replace (major_stride c (s_lay s) * (row + s_top s) + (0 + Z.of_nat col) * minor_stride c (s_lay s))
    with ((s_top s + row) * major_stride c (s_lay s) + Z.of_nat col * minor_stride c (s_lay s)) by lia.
  intros E. assert (Es : exists s3, s' = navigated c h s3 /\ s_index s3 = match cell c s row (Z.of_nat col) with Some i => i | None => l_count (s_lay s) - 1 end).
  { eexists. split; [injection E as <-; reflexivity|]. unfold cell. cbv zeta.
    destruct (_ <=? _); reflexivity. }
  destruct Es as (s3 & -> & Es). rewrite <- Es. apply nav_index.
Qed.
Print Assumptions click_selects.

(** ** C73 *)

(** The arrow keys across the lines of the list go to the next match in the order line by line; after the last they start
    again, or (without wraparound) go to the last match of the list. *)
Theorem arrow_ahead : forall c s h, reach c s -> 0 < l_vis (s_lay s) -> s_latch s = false ->
  exists s', on_input c (ahead c) h s = Go s' /\ l_count (s_lay s') = l_count (s_lay s) /\ 0 <= s_index s' < l_count (s_lay s) /\
    (follows (lines c s) (l_count (s_lay s)) (s_index s) (s_index s') /\ s_latch s' = false \/
     is_last (lines c s) (l_count (s_lay s)) (s_index s) /\ s_index s' = (if c_wrap c then 0 else l_count (s_lay s) - 1) /\
     s_latch s' = negb (c_wrap c) /\ s_prev s' = key_id (ahead c)).
Proof.
  intros c s h H Hv Hl. pose proof (reach_good c s H) as G. destruct (input_started c (ahead c) h s G Hv) as [G1 E].
  destruct (started_eq (ahead c) s) as (E1 & E2 & E3 & E4 & E5 & E6). specialize (E6 Hl).
  assert (E7 : on_input c (ahead c) h s = arrow_higher c h (lines c s) (started (ahead c) s)) by (rewrite E; unfold ahead; destruct (c_horiz c); reflexivity).
  rewrite E7. clear E E7. unfold arrow_higher. rewrite E6, E2, E1. destruct (higher_some (c_wrap c) (s_index s) (lines c s) (l_count (s_lay s))) as (j & b & Eh). rewrite Eh.
  assert (Hpv : s_prev (started (ahead c) s) = key_id (ahead c)).
  { unfold started. destruct (Nat.eqb _ _) eqn:En; [apply Nat.eqb_eq; exact En|]. unfold ahead. destruct (c_horiz c); reflexivity. }
  destruct (lines_ok c s (good_pre _ _ G)) as (L1 & _ & _). apply higher_follows in Eh as (_ & Hj & Eh); [|lia|lia|apply G].
  eexists. split; [reflexivity|]. destruct (nav_index c h (w_latch b (w_index j (started (ahead c) s)))) as (N1 & N2 & N3 & N4). rewrite N1, N2, N3, N4.
  cbn [w_latch w_index s_index s_lay s_latch s_prev]. rewrite E1. split; [reflexivity|]. split; [exact Hj|].
  destruct Eh as [[Eh ->]|[Eh Ew]]; [left; auto|right]. split; [exact Eh|]. destruct (c_wrap c); destruct Ew as [-> ->]; auto.
Qed.
Print Assumptions arrow_ahead.

(** Without wraparound, the key that went to the end does nothing more. *)
Theorem ahead_stops : forall c s h, 0 < l_vis (s_lay s) -> 0 < l_count (s_lay s) -> s_latch s = true -> s_prev s = key_id (ahead c) ->
  exists s', on_input c (ahead c) h s = Go s' /\ s_index s' = s_index s /\ s_top s' = s_top s /\ s_latch s' = true /\ s_prev s' = s_prev s /\ s_lay s' = s_lay s.
Proof.
  intros c s h Hv Hc Hl Hp. unfold on_input. cbv zeta. rewrite Hp, Nat.eqb_refl. replace (l_count (s_lay s) =? 0) with false by lia. replace (l_vis (s_lay s) <=? 0) with false by lia.
  exists (w_ign false s). unfold ahead in *. destruct (c_horiz c) eqn:Eh; unfold arrow_higher, higher; change (s_latch (w_ign false s)) with (s_latch s); rewrite Hl; repeat split; try assumption.
Qed.
Print Assumptions ahead_stops.

(** The opposite key goes to the previous match in that order. *)
Theorem arrow_back : forall c s h, reach c s -> 0 < l_vis (s_lay s) ->
  exists s', on_input c (back c) h s = Go s' /\ l_count (s_lay s') = l_count (s_lay s) /\ 0 <= s_index s' < l_count (s_lay s) /\
    (follows (lines c s) (l_count (s_lay s)) (s_index s') (s_index s) \/
     s_index s = 0 /\ if c_wrap c then is_last (lines c s) (l_count (s_lay s)) (s_index s') else s_index s' = 0).
Proof.
  intros c s h H Hv. pose proof (reach_good c s H) as G. destruct (input_started c (back c) h s G Hv) as [G1 E].
  destruct (started_eq (back c) s) as (E1 & E2 & E3 & E4 & E5 & E6).
  assert (E7 : on_input c (back c) h s = arrow_lower c h (lines c s) (if c_horiz c then l_rows (s_lay s) else l_cols (s_lay s)) (started (back c) s)) by (rewrite E; unfold back; destruct (c_horiz c); reflexivity).
  rewrite E7. clear E E7. unfold arrow_lower. rewrite E2, E1.
  destruct (lines_ok c s (good_pre _ _ G)) as (L1 & L2 & L3). destruct (lower_follows (c_wrap c) (s_index s) (lines c s) (if c_horiz c then l_rows (s_lay s) else l_cols (s_lay s)) (l_count (s_lay s)) ltac:(lia) ltac:(lia) L2 L3 (gd_index _ _ G)) as [A B]. cbv zeta in *.
  eexists. split; [reflexivity|]. match goal with |- context [navigated c h ?x] => destruct (nav_index c h x) as (N1 & N2 & _ & _) end. rewrite N1, N2.
  cbn [w_index s_index s_lay]. rewrite E1. split; [reflexivity|]. split; [exact A|exact B].
Qed.
Print Assumptions arrow_back.

Lemma nav_reach c k s s' : reach c s -> input_ok c s k None -> on_input c k None s = Go s' -> reach c s'.
Proof. intros. eapply r_input; eauto. Qed.
Lemma lines_same c s s' : s_lay s' = s_lay s -> lines c s' = lines c s.
Proof. intros E. unfold lines. rewrite E. reflexivity. Qed.
Lemma arrow_lay c s s' k : k = ahead c \/ k = back c \/ k = k_pgup \/ k = k_pgdn -> good c s -> 0 < l_vis (s_lay s) -> on_input c k None s = Go s' -> s_lay s' = s_lay s.
Proof.
  intros Hk G Hv E. destruct (input_started c k None s G Hv) as [G1 E1]. destruct (started_eq k s) as (F & _).
  assert (X : exists s1, s_lay s1 = s_lay s /\ (s' = navigated c None s1 \/ s' = s1)).
  { rewrite E1 in E. clear E1. destruct Hk as [-> | [-> | [-> | ->]]].
    - unfold ahead in *. destruct (c_horiz c); unfold arrow_higher in E; destruct (higher _ _ _ _ _) as [[j b]|]; injection E as <-; eexists; (split; [|first [left; reflexivity|right; reflexivity]]); exact F.
    - unfold back in *. destruct (c_horiz c); unfold arrow_lower in E; injection E as <-; eexists; (split; [|left; reflexivity]); exact F.
    - injection E as <-. eexists. split; [|left; reflexivity]. unfold page_up. cbv zeta. destruct (_ =? 0); exact F.
    - injection E as <-. eexists. split; [|left; reflexivity]. unfold page_down. cbv zeta. destruct (_ =? _); [exact F|]. destruct (_ <=? _); [destruct (c_horiz c)|]; exact F. }
  destruct X as (s1 & X1 & [->| ->]); [rewrite nav_lay|]; exact X1.
Qed.

(** With wraparound, each undoes the other. *)
Theorem back_undoes_ahead : forall c s s1 s2, reach c s -> 0 < l_vis (s_lay s) -> s_latch s = false -> c_wrap c = true ->
  on_input c (ahead c) None s = Go s1 -> on_input c (back c) None s1 = Go s2 -> s_index s2 = s_index s.
Proof.
  intros c s s1 s2 H Hv Hl Hw E1 E2. pose proof (reach_good c s H) as G. destruct (arrow_ahead c s None H Hv Hl) as (x & X & A1 & A2 & A3).
  rewrite E1 in X. injection X as <-. assert (L : s_lay s1 = s_lay s) by (apply (arrow_lay c s s1 (ahead c)); auto).
  assert (R1 : reach c s1). { apply (nav_reach c (ahead c) s); auto. split; [exact Logic.I|]. unfold ahead. destruct (c_horiz c); exact Logic.I. }
  destruct (arrow_back c s1 None R1 ltac:(rewrite L; exact Hv)) as (y & Y & B1 & B2 & B3). rewrite E2 in Y. injection Y as <-.
  rewrite (lines_same _ _ _ L) in B3. rewrite L in B1, B2, B3. rewrite Hw in A3, B3. pose proof (gd_index _ _ G) as Hi.
  destruct (lines_ok c s (good_pre _ _ G)) as (L1 & _ & _).
  destruct A3 as [[A3 _]|(A3 & A4 & _)].
  - destruct B3 as [B3|[B3 _]]; [eapply follows_inj; [|exact B2|exact Hi|exact B3|exact A3]; lia|].
    exfalso. rewrite B3 in A3. destruct A3 as [A3 _]. eapply zero_first; [| |exact A3]; lia.
  - destruct B3 as [[B3 _]|[_ B3]]; [exfalso; rewrite A4 in B3; eapply zero_first; [| |exact B3]; lia|]. eapply last_unique; [exact B2|exact Hi|exact B3|exact A3].
Qed.
Print Assumptions back_undoes_ahead.

Lemma presses_snoc c k n s s1 s2 : presses c k n s s1 -> on_input c k None s1 = Go s2 -> presses c k (S n) s s2.
Proof.
  induction 1 as [s|n s sa sb E _ IH]; intros E2; [eapply p_more; [exact E2|constructor]|]. eapply p_more; [exact E|]. apply IH, E2.
Qed.
Lemma presses_app c k n m s s1 s2 : presses c k n s s1 -> presses c k m s1 s2 -> presses c k (n + m) s s2.
Proof. induction 1 as [s|n s sa sb E _ IH]; intros E2; [exact E2|]. cbn [plus]. eapply p_more; [exact E|]. apply IH, E2. Qed.

Lemma lex_up M n a b a1 b1 : 0 <= a < n -> 0 <= a1 < n -> 0 <= b < M -> 0 <= b1 < M -> b < b1 \/ (b = b1 /\ a < a1) ->
  (Z.to_nat (M - b1) * Z.to_nat (n + 1) + Z.to_nat (n - a1) < Z.to_nat (M - b) * Z.to_nat (n + 1) + Z.to_nat (n - a))%nat.
Proof.
  intros Ha Ha1 Hb Hb1 A. apply Nat2Z.inj_lt. rewrite !Nat2Z.inj_add, !Nat2Z.inj_mul, !Z2Nat.id by lia.
  destruct A as [A|[-> A]]; [|lia]. assert (X : (M - b1 + 1) * (n + 1) <= (M - b) * (n + 1)) by (apply Z.mul_le_mono_nonneg_r; lia). lia.
Qed.
Lemma lex_down M n a b a1 b1 : 0 <= a < n -> 0 <= a1 < n -> 0 <= b < M -> 0 <= b1 < M -> b1 < b \/ (b1 = b /\ a1 < a) ->
  (Z.to_nat b1 * Z.to_nat (n + 1) + Z.to_nat a1 < Z.to_nat b * Z.to_nat (n + 1) + Z.to_nat a)%nat.
Proof.
  intros Ha Ha1 Hb Hb1 A. apply Nat2Z.inj_lt. rewrite !Nat2Z.inj_add, !Nat2Z.inj_mul, !Z2Nat.id by lia.
  destruct A as [A|[-> A]]; [|lia]. assert (X : (b1 + 1) * (n + 1) <= b * (n + 1)) by (apply Z.mul_le_mono_nonneg_r; lia). lia.
Qed.

Section Visit.
Context (c : cfg) (Hw : c_wrap c = true).
Definition fine (l : lay) (s : st) : Prop := reach c s /\ s_lay s = l /\ 0 < l_vis l /\ s_latch s = false.

Lemma ahead_fine l s : fine l s -> exists s', on_input c (ahead c) None s = Go s' /\ fine l s' /\
  (follows (lines c s) (l_count l) (s_index s) (s_index s') \/ is_last (lines c s) (l_count l) (s_index s) /\ s_index s' = 0).
Proof.
  intros (R & L & V & T). subst l. destruct (arrow_ahead c s None R V T) as (s' & E & A1 & A2 & A3). rewrite Hw in A3. exists s'. split; [exact E|].
  assert (Ls : s_lay s' = s_lay s) by (apply (arrow_lay c s s' (ahead c)); auto; apply reach_good; exact R).
  split; [|destruct A3 as [[A3 _]|(A3 & A4 & _)]; auto].
  split; [|split; [exact Ls|split; [exact V|destruct A3 as [[_ A3]|(_ & _ & A3 & _)]; auto]]].
  apply (nav_reach c (ahead c) s); auto. split; [exact Logic.I|]. unfold ahead. destruct (c_horiz c); exact Logic.I.
Qed.

(** from any match, on to the last *)
Lemma to_last l : forall d s, fine l s -> (Z.to_nat (lines c s - s_index s mod lines c s) * Z.to_nat (l_count l + 1) + Z.to_nat (l_count l - s_index s / lines c s) < d)%nat ->
  exists n s', presses c (ahead c) n s s' /\ fine l s' /\ is_last (lines c s) (l_count l) (s_index s').
Proof.
  induction d as [|d IH]; intros s F Hd; [destruct (Nat.nlt_0_r _ Hd)|]. destruct (ahead_fine l s F) as (s1 & E & F1 & A).
  destruct A as [A|[A _]]; [|exists 0%nat, s; split; [constructor|split; [exact F|exact A]]].
  assert (Ll : lines c s1 = lines c s) by (apply lines_same; destruct F as (_ & -> & _), F1 as (_ & -> & _); reflexivity).
  destruct (IH s1 F1) as (n & s' & P1 & P2 & P3).
  - rewrite Ll. destruct A as [A _]. destruct F as (R & L & V & _). destruct F1 as (R1 & L1 & _ & _). pose proof (reach_good c s R) as G. pose proof (reach_good c s1 R1) as G1.
    destruct (lines_ok c s (good_pre _ _ G)) as (Lk & _ & _). pose proof (gd_index _ _ G) as I1. pose proof (gd_index _ _ G1) as I2. rewrite L in *. rewrite L1 in *.
    set (M := lines c s) in *. destruct (divmod M (s_index s) ltac:(lia)) as [D1 D2]. destruct (divmod M (s_index s1) ltac:(lia)) as [D3 D4].
    pose proof (divmod_pos M (s_index s) ltac:(lia) ltac:(lia)) as D5. pose proof (divmod_pos M (s_index s1) ltac:(lia) ltac:(lia)) as D6.
    assert (D7 : s_index s / M < l_count l) by (apply Z.div_lt_upper_bound; nia). assert (D8 : s_index s1 / M < l_count l) by (apply Z.div_lt_upper_bound; nia).
    eapply Nat.lt_le_trans; [apply (lex_up M (l_count l) (s_index s / M) (s_index s mod M)); auto; lia|apply Nat.lt_succ_r; exact Hd].
  - exists (S n), s'. split; [eapply p_more; eauto|]. split; [exact P2|]. rewrite Ll in P3. exact P3.
Qed.

(** from the first, to any *)
Lemma from_first l : forall d j s, fine l s -> s_index s = 0 -> 0 <= j < l_count l ->
  (Z.to_nat (j mod lines c s) * Z.to_nat (l_count l + 1) + Z.to_nat (j / lines c s) < d)%nat ->
  exists n s', presses c (ahead c) n s s' /\ fine l s' /\ s_index s' = j.
Proof.
  induction d as [|d IH]; intros j s F F0 Hj Hd; [destruct (Nat.nlt_0_r _ Hd)|].
  destruct (Z.eq_dec j 0) as [->|N0]; [exists 0%nat, s; split; [constructor|auto]|].
  pose proof F as (R & L & V & _). pose proof (reach_good c s R) as G. destruct (lines_ok c s (good_pre _ _ G)) as (L1 & L2 & L3). rewrite L in L1.
  set (M := lines c s) in *. destruct (lower_follows true j M _ (l_count l) ltac:(lia) ltac:(lia) L2 ltac:(rewrite <- L; exact L3) Hj) as [P1 P2]. cbv zeta in *.
  set (p := lower true j M _ (l_count l)) in *. clearbody p. destruct P2 as [P2|[P2 _]]; [|lia].
  destruct (IH p s F F0 P1) as (n & s1 & Q1 & Q2 & Q3).
  - destruct P2 as [A _]. fold M. destruct (divmod M j ltac:(lia)) as [D1 D2]. destruct (divmod M p ltac:(lia)) as [D3 D4].
    pose proof (divmod_pos M j ltac:(lia) ltac:(lia)) as D5. pose proof (divmod_pos M p ltac:(lia) ltac:(lia)) as D6.
    assert (D7 : j / M < l_count l) by (apply Z.div_lt_upper_bound; nia). assert (D8 : p / M < l_count l) by (apply Z.div_lt_upper_bound; nia).
    eapply Nat.lt_le_trans; [apply (lex_down M (l_count l) (j / M) (j mod M)); auto; lia|apply Nat.lt_succ_r; exact Hd].
  - destruct (ahead_fine l s1 Q2) as (s2 & E & F2 & A).
    assert (Ll : lines c s1 = M) by (apply lines_same; destruct Q2 as (_ & -> & _); symmetry; exact L). rewrite Ll, Q3 in A.
    assert (I2 : 0 <= s_index s2 < l_count l) by (destruct F2 as (R2 & L2' & _); pose proof (gd_index _ _ (reach_good _ _ R2)) as X; rewrite L2' in X; exact X).
    destruct A as [A|[A _]].
    + exists (S n), s2. split; [eapply presses_snoc; eauto|]. split; [exact F2|]. eapply follows_fun; [exact I2|exact Hj|exact A|exact P2].
    + exfalso. eapply last_none; [exact Hj|exact A|apply P2].
Qed.
End Visit.

(** With wraparound, pressing the one key reaches every match. *)
Theorem ahead_visits : forall c s j, reach c s -> 0 < l_vis (s_lay s) -> s_latch s = false -> c_wrap c = true -> 0 <= j < l_count (s_lay s) ->
  exists n s', presses c (ahead c) n s s' /\ s_index s' = j.
Proof.
  intros c s j R V T Hw Hj. assert (F : fine c (s_lay s) s) by (split; [exact R|split; [reflexivity|split; [exact V|exact T]]]).
  destruct (to_last c Hw (s_lay s) _ s F (Nat.lt_succ_diag_r _)) as (n1 & s1 & P1 & F1 & A1).
  assert (Ll : lines c s1 = lines c s) by (apply lines_same; apply F1). rewrite <- Ll in A1.
  destruct (ahead_fine c Hw (s_lay s) s1 F1) as (s2 & E & F2 & A2).
  assert (E0 : s_index s2 = 0).
  { destruct A2 as [A2|[_ A2]]; [|exact A2]. exfalso. eapply last_none; [|exact A1|apply A2]. destruct F2 as (R2 & L2 & _). pose proof (gd_index _ _ (reach_good _ _ R2)) as X. rewrite L2 in X. exact X. }
  destruct (from_first c Hw (s_lay s) _ j s2 F2 E0 Hj (Nat.lt_succ_diag_r _)) as (n2 & s3 & P2 & _ & E3).
  exists (n1 + S n2)%nat, s3. split; [|exact E3]. eapply presses_app; [exact P1|]. eapply p_more; [exact E|exact P2].
Qed.
Print Assumptions ahead_visits.

(** Page Down, pressed again and again, gets to the last match, and Page Up to the first. *)
Lemma page_step c s : reach c s -> 0 < l_vis (s_lay s) ->
  (exists s', on_input c k_pgdn None s = Go s' /\ reach c s' /\ s_lay s' = s_lay s /\
     (s_index s' = l_count (s_lay s) - 1 \/ match_row c (s_lay s) (s_index s) < match_row c (s_lay s) (s_index s'))) /\
  (exists s', on_input c k_pgup None s = Go s' /\ reach c s' /\ s_lay s' = s_lay s /\
     (s_index s' = 0 \/ match_row c (s_lay s) (s_index s') < match_row c (s_lay s) (s_index s))).
Proof.
  intros R V. pose proof (reach_good c s R) as G. split.
  - destruct (input_started c k_pgdn None s G V) as [G1 E]. destruct (started_eq k_pgdn s) as (E1 & E2 & _). eexists. split; [exact E|].
    split; [apply (nav_reach c k_pgdn s); auto; split; exact Logic.I|]. split; [apply (arrow_lay c s _ k_pgdn); auto|].
    destruct (page_down_moved c _ G1 ltac:(rewrite E1; exact V)) as [_ A]. rewrite E1, E2 in A. destruct (nav_index c None (page_down c (started k_pgdn s))) as (N1 & _). rewrite N1. exact A.
  - destruct (input_started c k_pgup None s G V) as [G1 E]. destruct (started_eq k_pgup s) as (E1 & E2 & _). eexists. split; [exact E|].
    split; [apply (nav_reach c k_pgup s); auto; split; exact Logic.I|]. split; [apply (arrow_lay c s _ k_pgup); auto; tauto|].
    destruct (page_up_moved c _ G1 ltac:(rewrite E1; exact V)) as [_ A]. rewrite E1, E2 in A. destruct (nav_index c None (page_up c (started k_pgup s))) as (N1 & _). rewrite N1. exact A.
Qed.
Theorem page_down_last : forall c s, reach c s -> 0 < l_vis (s_lay s) ->
  exists n s', presses c k_pgdn n s s' /\ s_index s' = l_count (s_lay s) - 1 /\ (n <= Z.to_nat (l_rows (s_lay s)))%nat.
Proof.
  intros c s R V. assert (K : forall d s, reach c s -> 0 < l_vis (s_lay s) -> (Z.to_nat (l_rows (s_lay s) - match_row c (s_lay s) (s_index s)) <= d)%nat ->
    exists n s', presses c k_pgdn n s s' /\ s_index s' = l_count (s_lay s) - 1 /\ (n <= d)%nat).
  { clear s R V. induction d as [|d IH]; intros s R V Hd; pose proof (reach_good c s R) as G; pose proof (pre_row c s _ (good_pre _ _ G) (gd_index _ _ G)) as Hr; [lia|].
    destruct (page_step c s R V) as [(s1 & E & R1 & L1 & A) _]. destruct A as [A|A].
    - exists 1%nat, s1. split; [eapply p_more; [exact E|constructor]|]. split; [exact A|lia].
    - destruct (IH s1 R1 ltac:(rewrite L1; exact V)) as (n & s2 & P & A2 & Hn); [rewrite L1; lia|]. exists (S n), s2. split; [eapply p_more; eauto|]. rewrite L1 in A2. split; [exact A2|lia]. }
  destruct (K (Z.to_nat (l_rows (s_lay s))) s R V) as (n & s' & P & A & Hn); [|exists n, s'; auto].
  pose proof (reach_good c s R) as G. pose proof (pre_row c s _ (good_pre _ _ G) (gd_index _ _ G)). lia.
Qed.
Print Assumptions page_down_last.
Theorem page_up_first : forall c s, reach c s -> 0 < l_vis (s_lay s) ->
  exists n s', presses c k_pgup n s s' /\ s_index s' = 0 /\ (n <= Z.to_nat (l_rows (s_lay s)))%nat.
Proof.
  intros c s R V. assert (K : forall d s, reach c s -> 0 < l_vis (s_lay s) -> (Z.to_nat (match_row c (s_lay s) (s_index s)) < d)%nat ->
    exists n s', presses c k_pgup n s s' /\ s_index s' = 0 /\ (n <= d)%nat).
  { clear s R V. induction d as [|d IH]; intros s R V Hd; [lia|].
    destruct (page_step c s R V) as [_ (s1 & E & R1 & L1 & A)]. destruct A as [A|A].
    - exists 1%nat, s1. split; [eapply p_more; [exact E|constructor]|]. split; [exact A|lia].
    - destruct (IH s1 R1 ltac:(rewrite L1; exact V)) as (n & s2 & P & A2 & Hn).
      { rewrite L1. pose proof (reach_good c s1 R1) as G1. pose proof (pre_row c s1 _ (good_pre _ _ G1) (gd_index _ _ G1)) as Hr. rewrite L1 in Hr. lia. }
      exists (S n), s2. split; [eapply p_more; eauto|]. split; [exact A2|lia]. }
  destruct (K (Z.to_nat (l_rows (s_lay s))) s R V) as (n & s' & P & A & Hn); [|exists n, s'; auto].
  pose proof (reach_good c s R) as G. pose proof (pre_row c s _ (good_pre _ _ G) (gd_index _ _ G)). lia.
Qed.
Print Assumptions page_up_first.

(** The keys for the next and the previous match (Tab, and the arrows along the lines) go through the matches in the order in which
    they are listed, and past an end only with wraparound; the keys for the first and the last match go there. *)
Definition along (c : cfg) : key := if c_horiz c then k_right else k_down.
Definition against (c : cfg) : key := if c_horiz c then k_left else k_up.
Theorem next_match : forall c s h k, reach c s -> 0 < l_vis (s_lay s) -> k = k_next \/ k = along c ->
  exists s', on_input c k h s = Go s' /\ l_count (s_lay s') = l_count (s_lay s) /\
    s_index s' = if s_index s =? l_count (s_lay s) - 1 then (if c_wrap c then 0 else s_index s) else s_index s + 1.
Proof.
  intros c s h k H Hv Hk. pose proof (reach_good c s H) as G. pose proof (gd_index _ _ G) as Hi. destruct (input_started c k h s G Hv) as [_ E].
  destruct (started_eq k s) as (E1 & E2 & _).
  assert (X : exists s1, on_input c k h s = Go (navigated c h (go_next c s1)) /\ s_lay s1 = s_lay s /\ s_index s1 = s_index s).
  { rewrite E. destruct Hk as [-> | ->]; [|unfold along in *; destruct (c_horiz c); unfold arrow_next]; eexists; (split; [reflexivity|]);
      (destruct (negb (c_wrap c) && _) eqn:F || idtac); cbn [w_latch s_lay s_index]; auto. }
  destruct X as (s1 & -> & X1 & X2). exists (navigated c h (go_next c s1)). split; [reflexivity|].
  destruct (nav_index c h (go_next c s1)) as (N1 & N2 & _ & _). rewrite N1, N2. unfold go_next. cbn [w_index s_lay s_index]. rewrite X1, X2. split; [reflexivity|].
  destruct (s_index s =? l_count (s_lay s) - 1) eqn:F; destruct (l_count (s_lay s) <=? s_index s + 1) eqn:F2; try lia; destruct (c_wrap c); lia.
Qed.
Theorem previous_match : forall c s h k, reach c s -> 0 < l_vis (s_lay s) -> k = k_prev \/ k = against c ->
  exists s', on_input c k h s = Go s' /\ l_count (s_lay s') = l_count (s_lay s) /\
    s_index s' = if s_index s =? 0 then (if c_wrap c then l_count (s_lay s) - 1 else 0) else s_index s - 1.
Proof.
  intros c s h k H Hv Hk. pose proof (reach_good c s H) as G. pose proof (gd_index _ _ G) as Hi. destruct (input_started c k h s G Hv) as [_ E].
  destruct (started_eq k s) as (E1 & E2 & _).
  assert (X : on_input c k h s = Go (navigated c h (go_prev c (started k s)))).
  { rewrite E. destruct Hk as [-> | ->]; [reflexivity|]. unfold against. destruct (c_horiz c); reflexivity. }
  rewrite X. eexists. split; [reflexivity|].
  destruct (nav_index c h (go_prev c (started k s))) as (N1 & N2 & _ & _). rewrite N1, N2. unfold go_prev. cbn [w_index s_lay s_index]. rewrite E1, E2. split; [reflexivity|].
  destruct (s_index s =? 0) eqn:F; destruct (s_index s - 1 <? 0) eqn:F2; try lia; destruct (c_wrap c); lia.
Qed.
Theorem first_last_match : forall c s h, reach c s -> 0 < l_vis (s_lay s) ->
  (exists s', on_input c k_first h s = Go s' /\ s_index s' = 0) /\ (exists s', on_input c k_last h s = Go s' /\ s_index s' = l_count (s_lay s) - 1).
Proof.
  intros c s h H Hv. pose proof (reach_good c s H) as G. split.
  - unfold on_input. cbv zeta. pose proof (gd_index _ _ G) as Hi. destruct (Nat.eqb _ _); cbn [w_prev w_latch s_lay]; replace (l_count (s_lay s) =? 0) with false by lia; replace (l_vis (s_lay s) <=? 0) with false by lia;
      (eexists; split; [reflexivity|]); match goal with |- context [navigated c h ?x] => destruct (nav_index c h x) as (N1 & _) end; rewrite N1; reflexivity.
  - unfold on_input. cbv zeta. pose proof (gd_index _ _ G) as Hi. destruct (Nat.eqb _ _); cbn [w_prev w_latch s_lay]; replace (l_count (s_lay s) =? 0) with false by lia; replace (l_vis (s_lay s) <=? 0) with false by lia;
      (eexists; split; [reflexivity|]); match goal with |- context [navigated c h ?x] => destruct (nav_index c h x) as (N1 & _) end; rewrite N1; unfold go_last, set_top; cbv zeta;
      repeat match goal with |- context [if ?b then _ else _] => destruct b end; reflexivity.
Qed.
Print Assumptions next_match.
Print Assumptions previous_match.
Print Assumptions first_last_match.
