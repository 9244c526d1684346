From Verif Require Import Base SmallModel SmallProperties SelModel SelSpec SelProofs.
Local Open Scope Z_scope.

Definition tidy (c : cfg) (s : st) : Prop :=
  0 < l_vis (s_lay s) -> s_top s <= Z.max 0 (l_rows (s_lay s) - l_vis (s_lay s)) /\ (s_exp s = false -> s_top s = 0).

(** A key's effect before [navigated] *)
Record moved (c : cfg) (s s' : st) : Prop := mkMoved {
  mv_lay : s_lay s' = s_lay s;
  mv_exp : s_exp s' = s_exp s;
  mv_index : 0 <= s_index s' < l_count (s_lay s);
  mv_top : 0 <= s_top s';
  mv_tidy : s_top s <= Z.max 0 (l_rows (s_lay s) - l_vis (s_lay s)) -> s_top s' <= Z.max 0 (l_rows (s_lay s) - l_vis (s_lay s));
  mv_zero : s_top s = 0 -> s_top s' = 0 \/ l_vis (s_lay s) - 1 <= match_row c (s_lay s) (s_index s') }.

Definition longer (h : option Z) (s : st) : Prop :=
  match h with Some x => g_height (l_geom (s_lay s)) <= x | None => True end.

Lemma good_ext c s s' : s_lay s' = s_lay s -> s_index s' = s_index s -> s_top s' = s_top s -> s_disp s' = s_disp s -> s_exp s' = s_exp s ->
  good c s -> good c s'.
Proof. intros E1 E2 E3 E4 E5 [H1 H2 H3 H4 H5 H6]. constructor; rewrite ?E1, ?E2, ?E3, ?E4, ?E5; auto. Qed.

Lemma vis_mono g x n : g_height g <= x -> 
  l_vis (layout (mkGeom (g_rows g) (g_screen g) x (g_desc g) (g_max g) (g_fit g) (g_widths g) (g_pad g)) n) <= l_vis (layout g n).
Proof.
  intros H. cbn [layout l_vis]. cbv zeta. unfold visible_rows. cbv zeta. cbn [g_rows g_height g_desc g_max g_fit].
  set (m := Z.quot _ (Z.max 1 (g_fit g))). set (q := Z.quot (g_rows g) 10). clearbody m q.
  repeat match goal with |- context [if ?b then _ else _] =>
    match b with context [if _ then _ else _] => fail 1 | _ => destruct b eqn:? end end; lia.
Qed.

Section Steps.
Context (c : cfg).

Lemma moved_pre s s' : pre c s -> moved c s s' -> pre c s'.
Proof. intros [P1 P2 P3 P4] [M1 M2 M3 M4 M5 M6]. constructor; rewrite ?M1; auto. Qed.

Lemma display_tidy s : pre c s -> s_top s <= Z.max 0 (l_rows (s_lay s) - l_vis (s_lay s)) ->
  (s_exp s = false -> s_top s = 0 \/ l_vis (s_lay s) - 1 <= match_row c (s_lay s) (s_index s)) -> tidy c (display c s).
Proof.
  intros P Ht Hz. unfold tidy. destruct (Z.le_gt_cases (l_vis (s_lay s)) 0) as [Hv|Hv].
  { rewrite display_none by assumption. lia. }
  destruct (display_spec c s P ltac:(lia)) as (G & El & Ei & _ & _ & _ & E2 & E3). cbv zeta in E3. rewrite El. intros _.
  pose proof (pre_row c s _ P (pr_index _ _ P)) as Hy. destruct G as [_ _ _ G4 G5 _]. rewrite El in G5. specialize (G5 ltac:(lia)) as (G5 & _ & G6).
  split; [lia|]. intros Ex. specialize (E2 Ex) as [E2a E2]. specialize (G6 Ex). specialize (Hz E2a).
  rewrite Ex in E3. destruct E3 as [E3|[E3|[E3 _]]]; [| |discriminate]; lia.
Qed.

Lemma navigated_ok h s s' : good c s -> height_ok h -> moved c s s' ->
  good c (navigated c h s') /\ (tidy c s -> 0 < l_vis (s_lay s) -> longer h s -> tidy c (navigated c h s')).
Proof.
  intros G Hh M. pose proof (good_pre _ _ G) as P. pose proof (moved_pre _ _ P M) as P'.
  split; [apply good_navigated; auto|]. intros T Hv Hl. specialize (T Hv) as [T1 T2]. unfold navigated. destruct M as [M1 M2 M3 M4 M5 M6].
  pose proof (pre_insert _ _ _ Hh P') as P2.
  assert (K : s_top (insert_match h s') = s_top s' /\ s_exp (insert_match h s') = s_exp s' /\ s_index (insert_match h s') = s_index s' /\
              l_vis (s_lay (insert_match h s')) <= l_vis (s_lay s') /\ l_rows (s_lay (insert_match h s')) = l_rows (s_lay s') /\
              l_cols (s_lay (insert_match h s')) = l_cols (s_lay s')).
  { destruct h as [x|]; [|cbn [insert_match]; repeat split; try reflexivity; lia]. unfold insert_match, update_layout.
    cbn [w_car w_ign w_lay s_top s_exp s_index s_lay]. split; [reflexivity|]. split; [reflexivity|]. split; [reflexivity|].
    pose proof (f_equal l_rows (pr_lay _ _ P')) as F1. pose proof (f_equal l_cols (pr_lay _ _ P')) as F2. pose proof (f_equal l_vis (pr_lay _ _ P')) as F3.
    split; [|split; symmetry; [etransitivity; [exact F1|reflexivity]|etransitivity; [exact F2|reflexivity]]].
    etransitivity; [apply (vis_mono (l_geom (s_lay s')) x); rewrite M1; exact Hl|]. rewrite <- F3. lia. }
  destruct K as (K1 & K2 & K3 & K4 & K5 & K6). rewrite M1 in *.
  apply display_tidy; [exact P2|rewrite K1, K5; specialize (M5 T1); lia|].
  rewrite K2, M2, K1, K3. intros Ex. specialize (T2 Ex). specialize (M6 T2).
  assert (El : match_row c (s_lay (insert_match h s')) (s_index s') = match_row c (s_lay s) (s_index s')) by (unfold match_row; rewrite K5, K6; reflexivity).
  rewrite El. lia.
Qed.

Ltac mv := constructor; cbn [w_index w_latch w_ign w_prev w_bar set_top s_lay s_exp s_index s_top]; try reflexivity; try lia.

Lemma moved_index i s : 0 <= s_top s -> 0 <= i < l_count (s_lay s) -> moved c s (w_index i s).
Proof. intros. mv. Qed.
Lemma moved_latch b s s' : moved c s s' -> moved c s (w_latch b s').
Proof. intros [M1 M2 M3 M4 M5 M6]. constructor; cbn [w_latch s_lay s_exp s_index s_top]; auto. Qed.
Lemma moved_index_latch i b s : 0 <= s_top s -> 0 <= i < l_count (s_lay s) -> moved c s (w_latch b (w_index i s)).
Proof. intros. mv. Qed.
Lemma moved_refl s : good c s -> moved c s s.
Proof. intros [H1 H2 H3 H4 H5 H6]. constructor; auto. Qed.

Lemma next_range s : good c s -> 0 <= s_index (go_next c s) < l_count (s_lay s).
Proof. intros [_ _ H _ _ _]. unfold go_next. cbv zeta. cbn [s_index w_index]. destruct (_ <=? _) eqn:?; destruct (c_wrap c); lia. Qed.
Lemma prev_range s : good c s -> 0 <= s_index (go_prev c s) < l_count (s_lay s).
Proof. intros [_ _ H _ _ _]. unfold go_prev. cbv zeta. cbn [s_index w_index]. destruct (_ <? _) eqn:?; destruct (c_wrap c); lia. Qed.

(** back_into subtracts [major] until the index is below [count] *)
Lemma back_into_spec fuel : forall i M n, 1 <= M -> 0 <= i -> i mod M < n -> i < n + M * Z.of_nat fuel ->
  let j := back_into fuel i M n in 0 <= j < n /\ j mod M = i mod M /\ (j = i \/ n <= j + M).
Proof.
  induction fuel as [|f IH]; intros i M n HM Hi Hr Hf; cbn [back_into]; cbv zeta.
  - lia.
  - destruct (n <=? i) eqn:E; [|lia].
    pose proof (Z.div_mod i M ltac:(lia)) as D. pose proof (Z.mod_pos_bound i M ltac:(lia)) as B.
    assert (Hge : M <= i). { assert (i / M <> 0) by (intros Z0; rewrite Z0 in D; lia). assert (0 <= i / M) by (apply Z.div_pos; lia). nia. }
    assert (Em : (i - M) mod M = i mod M). { replace (i - M) with (i + (-1) * M) by lia. apply Z.mod_add. lia. }
    destruct (IH (i - M) M n HM ltac:(lia) ltac:(rewrite Em; lia) ltac:(lia)) as (A & A2 & A3). cbv zeta in *.
    split; [exact A|]. split; [rewrite A2; exact Em|]. right. destruct A3 as [->|]; lia.
Qed.

(** the previous index in the order, where 0 is first *)
Lemma lower_spec wrap i M m n : 1 <= M -> M <= n -> 1 <= m -> n <= M * m -> 0 <= i < n ->
  let j := lower wrap i M m n in 0 <= j < n /\
  (M <= i -> j = i - M) /\
  (0 < i < M -> j mod M = i - 1 /\ n <= j + M) /\
  (i = 0 -> if wrap then j mod M = M - 1 /\ n <= j + M else j = 0).
Proof.
  intros HM Hn Hm Hmm Hi. unfold lower. cbv zeta. destruct (i =? 0) eqn:E0.
  - assert (i = 0) by lia. subst i. destruct wrap; cbn [negb andb orb].
    + destruct (back_into_spec (Z.to_nat m) (0 - 1 + M * m) M n HM ltac:(nia)) as (A & A2 & A3).
      { replace (0 - 1 + M * m) with ((M - 1) + (m - 1) * M) by lia. rewrite Z.mod_add by lia. rewrite Z.mod_small; lia. }
      { rewrite Z2Nat.id by lia. lia. }
      cbv zeta in *. split; [exact A|]. split; [lia|]. split; [lia|]. intros _.
      assert (Em : (0 - 1 + M * m) mod M = M - 1).
      { replace (0 - 1 + M * m) with ((M - 1) + (m - 1) * M) by lia. rewrite Z.mod_add by lia. apply Z.mod_small; lia. }
      split; [lia|]. destruct A3 as [->|]; lia.
    + split; [lia|]. split; [lia|]. split; [lia|]. intros _. reflexivity.
  - cbn [andb orb]. destruct (i - M <? 0) eqn:E1.
    + destruct (back_into_spec (Z.to_nat m) (i - M - 1 + M * m) M n HM ltac:(nia)) as (A & A2 & A3).
      { replace (i - M - 1 + M * m) with ((i - 1) + (m - 1) * M) by lia. rewrite Z.mod_add by lia. rewrite Z.mod_small; lia. }
      { rewrite Z2Nat.id by lia. lia. }
      cbv zeta in *. split; [exact A|]. split; [lia|]. split; [|lia]. intros _.
      assert (Em : (i - M - 1 + M * m) mod M = i - 1).
      { replace (i - M - 1 + M * m) with ((i - 1) + (m - 1) * M) by lia. rewrite Z.mod_add by lia. apply Z.mod_small; lia. }
      split; [lia|]. destruct A3 as [->|]; lia.
    + split; [lia|]. split; [lia|]. split; [lia|]. lia.
Qed.

Lemma higher_spec wrap i M n latched j b : 1 <= M -> M <= n -> 0 <= i < n -> higher wrap i M n latched = Some (j, b) ->
  latched = false /\ 0 <= j < n /\
  (i + M < n -> j = i + M /\ b = false) /\
  (n <= i + M -> i mod M < M - 1 -> j = i mod M + 1 /\ b = false) /\
  (n <= i + M -> i mod M = M - 1 -> if wrap then j = 0 /\ b = false else j = n - 1 /\ b = true).
Proof.
  intros HM Hn Hi. unfold higher. destruct latched; [discriminate|]. intros E.
  pose proof (Z.mod_pos_bound i M ltac:(lia)) as B.
  assert (Er : Z.rem (i + 1) M = if i mod M =? M - 1 then 0 else i mod M + 1).
  { rewrite Z.rem_mod_nonneg by lia. rewrite (Z.div_mod i M) at 1 by lia. replace (M * (i / M) + i mod M + 1) with ((i mod M + 1) + (i / M) * M) by lia.
    rewrite Z.mod_add by lia. destruct (i mod M =? M - 1) eqn:E1; [|apply Z.mod_small; lia].
    replace (i mod M + 1) with M by lia. apply Z.mod_same. lia. }
  rewrite Er in E. destruct (n <=? i + M) eqn:E1; cbn [andb] in E.
  - destruct (i mod M =? M - 1) eqn:E2.
    + replace (0 =? 0) with true in E by lia. destruct wrap; injection E as <- <-; (split; [reflexivity|]); (split; [lia|]); (split; [lia|]); (split; [lia|]); intros; auto.
    + replace (i mod M + 1 =? 0) with false in E by lia. cbv zeta in E. replace (n <=? i + M) with true in E by lia. injection E as <- <-.
      assert (Er2 : Z.rem (i + M + 1) M = i mod M + 1).
      { rewrite Z.rem_mod_nonneg by lia. replace (i + M + 1) with ((i + 1) + 1 * M) by lia. rewrite Z.mod_add by lia. rewrite <- Z.rem_mod_nonneg by lia.
        rewrite Er. reflexivity. }
      rewrite Er2. split; [reflexivity|]. split; [lia|]. split; [lia|]. split; [lia|]. lia.
  - cbv zeta in E. replace (n <=? i + M) with false in E by lia. injection E as <- <-.
    split; [reflexivity|]. split; [lia|]. split; [lia|]. split; lia.
Qed.

Lemma lines_ok s : pre c s -> 1 <= lines c s <= l_count (s_lay s) /\ 
  1 <= (if c_horiz c then l_rows (s_lay s) else l_cols (s_lay s)) /\
  l_count (s_lay s) <= lines c s * (if c_horiz c then l_rows (s_lay s) else l_cols (s_lay s)).
Proof.
  intros P. pose proof (pre_grid c s P) as (G1 & G2 & G3 & G4). unfold lines. destruct (c_horiz c) eqn:Eh.
  - destruct P as [P1 (_ & _ & _ & P2 & _) _ _]. specialize (P2 Eh). assert (Ec : l_cols (s_lay s) = Z.max 1 (g_fit (l_geom (s_lay s)))) by (rewrite P1; reflexivity). lia.
  - nia.
Qed.

Lemma offset_range s : 1 <= s_disp s -> 0 <= scroll_offset c s <= (s_disp s - 1) / 2.
Proof. intros. unfold scroll_offset. rewrite Z.quot_div_nonneg by lia. destruct (c_offset c <=? 0) eqn:?; lia. Qed.

Lemma stride_eq l : major_stride c l = strideof (c_horiz c) (l_cols l).
Proof. reflexivity. Qed.

Lemma page_up_moved s : good c s -> 0 < l_vis (s_lay s) -> moved c s (page_up c s) /\
  (s_index (page_up c s) = 0 \/ match_row c (s_lay s) (s_index (page_up c s)) < match_row c (s_lay s) (s_index s)).
Proof.
  intros G Hv. pose proof (good_pre _ _ G) as P. pose proof (pre_grid c s P) as Gr. pose proof (pre_row c s _ P (pr_index _ _ P)) as Hy.
  assert (Hv2 : 2 <= l_vis (s_lay s)) by (pose proof (vis_two (l_geom (s_lay s)) (l_count (s_lay s))) as X; rewrite <- (pr_lay _ _ P) in X; lia).
  destruct G as [_ _ Hi Ht Hd Hw]. specialize (Hd Hv) as [Hd _]. pose proof (offset_range s ltac:(lia)) as Ho. destruct Gr as (G1 & G2 & G3 & G4).
  unfold page_up. cbv zeta. rewrite stride_eq. rewrite (match_row_eq c (s_lay s) (s_index s)) in * by lia.
  set (C := l_cols (s_lay s)) in *. set (R := l_rows (s_lay s)) in *. set (V := l_vis (s_lay s)) in *. set (n := l_count (s_lay s)) in *.
  set (o := scroll_offset c s) in *. set (i := s_index s) in *. set (y := rowof (c_horiz c) C R i) in *.
  destruct (y =? 0) eqn:Ey. { split; [apply moved_index; lia|]. left. reflexivity. }
  set (ny := Z.max 0 _). assert (Hn : 0 <= ny < y) by (unfold ny; destruct (y <=? s_top s + o) eqn:?; lia). clearbody ny.
  pose proof (row_move (c_horiz c) C R i ny ltac:(lia) ltac:(lia) ltac:(lia) ltac:(lia) ltac:(lia)) as (A & A2 & A3 & A4). cbv zeta in *. fold y in A, A2, A3, A4.
  specialize (A3 ltac:(lia)). split; [apply moved_index; lia|]. right. cbn [s_index w_index]. rewrite match_row_eq by lia. fold C R. lia.
Qed.

Lemma page_down_moved s : good c s -> 0 < l_vis (s_lay s) -> moved c s (page_down c s) /\
  (s_index (page_down c s) = l_count (s_lay s) - 1 \/ match_row c (s_lay s) (s_index s) < match_row c (s_lay s) (s_index (page_down c s))).
Proof.
  intros G Hv. pose proof (good_pre _ _ G) as P. pose proof (pre_grid c s P) as Gr. pose proof (pre_row c s _ P (pr_index _ _ P)) as Hy.
  pose proof (pre_row c s (l_count (s_lay s) - 1) P ltac:(destruct Gr; lia)) as Hlast.
  assert (Hv2 : 2 <= l_vis (s_lay s)) by (pose proof (vis_two (l_geom (s_lay s)) (l_count (s_lay s))) as X; rewrite <- (pr_lay _ _ P) in X; lia).
  destruct G as [_ _ Hi Ht Hd Hw]. specialize (Hd Hv) as [Hd _]. pose proof (offset_range s ltac:(lia)) as Ho. destruct Gr as (G1 & G2 & G3 & G4).
  unfold page_down. cbv zeta. rewrite stride_eq. rewrite (match_row_eq c (s_lay s) (s_index s)) in * by lia.
  rewrite (match_row_eq c (s_lay s) (l_count (s_lay s) - 1)) in * by lia.
  set (C := l_cols (s_lay s)) in *. set (R := l_rows (s_lay s)) in *. set (V := l_vis (s_lay s)) in *. set (n := l_count (s_lay s)) in *.
  set (o := scroll_offset c s) in *. set (i := s_index s) in *. set (y := rowof (c_horiz c) C R i) in *. set (z := rowof (c_horiz c) C R (n - 1)) in *.
  destruct (y =? R - 1) eqn:Ey. { split; [apply moved_index; lia|]. left. reflexivity. }
  set (ny := Z.min (R - 1) _). assert (Hn : y < ny <= R - 1) by (unfold ny; destruct (_ <=? y) eqn:?; lia). clearbody ny.
  pose proof (row_move (c_horiz c) C R i ny ltac:(lia) ltac:(lia) ltac:(lia) ltac:(lia) ltac:(lia)) as (A & A2 & A3 & A4). cbv zeta in *. fold y in A, A2, A3, A4.
  specialize (A4 ltac:(lia)). set (k := i + (ny - y) * strideof (c_horiz c) C) in *.
  destruct (n <=? k) eqn:Ek.
  - destruct (c_horiz c) eqn:Eh.
    + assert (Ez : z = R - 1) by (unfold z, rowof; apply row_last; exact (conj G1 (conj G2 (conj G3 G4)))).
      assert (Eny : ny = R - 1). { destruct (Z.le_gt_cases ny (R - 2)); [|lia]. assert (k < n); [|lia]. eapply row_full; [exact (conj G1 (conj G2 (conj G3 G4)))|lia|]. unfold rowof in A2. rewrite A2. lia. }
      destruct (y + 1 <? ny) eqn:E1.
      * assert (Ek2 : k - strideof true C = i + ((ny - 1) - y) * strideof true C) by (unfold k; lia).
        pose proof (row_move true C R i (ny - 1) ltac:(lia) ltac:(lia) ltac:(lia) ltac:(lia) ltac:(lia)) as (B & B2 & B3 & B4). cbv zeta in *. fold y in B, B2, B3, B4.
        rewrite <- Ek2 in *. specialize (B4 ltac:(lia)).
        assert (k - strideof true C < n). { eapply row_full; [exact (conj G1 (conj G2 (conj G3 G4)))|lia|]. unfold rowof in B2. rewrite B2. lia. }
        set (k2 := k - strideof true C) in *. clearbody k2.
        split; [|right; cbn [s_index set_top w_index]; rewrite match_row_eq by lia; fold C R; rewrite Eh, B2; lia].
        constructor; cbn [w_index set_top s_lay s_exp s_index s_top]; try reflexivity; fold R V n; try lia.
        intros Z0. rewrite match_row_eq by lia. fold C R. rewrite Eh, B2. lia.
      * split; [|left; reflexivity]. constructor; cbn [w_index set_top s_lay s_exp s_index s_top]; try reflexivity; fold R V n; try lia.
        intros Z0. rewrite match_row_eq by lia. fold C R. rewrite Eh. fold z. lia.
    + split; [|left; reflexivity].
      constructor; cbn [w_index set_top s_lay s_exp s_index s_top]; try reflexivity; fold R V n; try lia.
      * destruct (s_top s + Z.min R V <=? z) eqn:?; lia.
      * intros Z0. rewrite match_row_eq by lia. fold C R. rewrite Eh. fold z. destruct (s_top s + Z.min R V <=? z) eqn:?; lia.
  - split; [|right; cbn [s_index set_top w_index]; rewrite match_row_eq by lia; fold C R; rewrite A2; lia].
    constructor; cbn [w_index set_top s_lay s_exp s_index s_top]; try reflexivity; fold R V n; try lia.
Qed.

Lemma last_moved s : good c s -> 0 < l_vis (s_lay s) -> moved c s (go_last c s).
Proof.
  intros G Hv. pose proof (good_pre _ _ G) as P. pose proof (pre_grid c s P) as Gr.
  pose proof (pre_row c s (l_count (s_lay s) - 1) P ltac:(destruct Gr; lia)) as Hlast. destruct Gr as (G1 & G2 & G3 & G4). destruct G as [_ _ Hi Ht _ _].
  unfold go_last. cbv zeta. constructor; cbn [w_index set_top s_lay s_exp s_index s_top]; try reflexivity; try lia.
  - destruct (_ <? _) eqn:?; lia.
  - destruct (_ <? _) eqn:?; lia.
Qed.

Lemma wheel_ok up n s : good c s -> 0 < l_vis (s_lay s) -> 0 <= n -> good c (wheel c up n s) /\ (tidy c s -> tidy c (wheel c up n s)).
Proof.
  intros G Hv Hn. pose proof (good_pre _ _ G) as P. pose proof (pre_grid c s P) as Gr. pose proof (pre_row c s _ P (pr_index _ _ P)) as Hy.
  pose proof (pre_row c s (l_count (s_lay s) - 1) P ltac:(destruct Gr; lia)) as Hlast.
  assert (K : forall s1, moved c s s1 -> s_disp s1 = s_disp s ->
    let u := (if (s_index s1 =? s_index s) && (s_top s1 =? s_top s) then s1 else display c s1) in good c u /\ (tidy c s -> tidy c u)).
  { intros s1 M Ed. cbv zeta. destruct (_ && _) eqn:E.
    - destruct M as [M1 M2 M3 M4 M5 M6]. split; [apply (good_ext c s); auto; lia|]. intros T. unfold tidy in *. rewrite M1, M2. intros X. specialize (T X) as [T T2]. split; [lia|]. intros Ex. specialize (T2 Ex). lia.
    - pose proof (navigated_ok None s s1 G Logic.I M) as [A B]. cbn [navigated insert_match] in *. unfold navigated in *. cbn [insert_match] in *. split; [exact A|].
      intros T. apply B; auto. exact Logic.I. }
  unfold wheel. cbv zeta. set (i := if up then _ else _).
  assert (Hi : 0 <= i).
  { destruct Gr as (G1 & G2 & G3 & G4). pose proof (pr_index _ _ P) as Hx. unfold i. rewrite stride_eq. rewrite match_row_eq in * by lia.
    set (y := rowof _ _ _ _) in *. destruct up.
    - pose proof (row_move (c_horiz c) (l_cols (s_lay s)) (l_rows (s_lay s)) (s_index s) (y - Z.min y n) ltac:(lia) ltac:(lia) ltac:(lia) ltac:(lia) ltac:(lia)) as (A & _).
      cbv zeta in A. fold y in A. replace (y - Z.min y n - y) with (- Z.min y n) in A by lia. lia.
    - unfold strideof. destruct (c_horiz c); nia. }
  clearbody i. destruct (l_count (s_lay s) <=? i) eqn:E.
  - set (V := l_vis (s_lay s)) in *. set (R := l_rows (s_lay s)) in *. destruct G as [_ _ Gi Gt _ _].
    destruct (_ =? match_row c (s_lay s) (l_count (s_lay s) - 1)) eqn:E1; apply K; try reflexivity.
    + constructor; cbn [w_index set_top s_lay s_exp s_index s_top]; try reflexivity; fold R V; try lia.
    + apply moved_index; lia.
  - apply K; [apply moved_index; [apply P|lia]|reflexivity].
Qed.
End Steps.
