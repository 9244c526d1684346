From Verif Require Import Base SmallModel SmallProperties SelModel SelSpec.
Local Open Scope Z_scope.

(** ** Numbers *)
Definition grid (C R n : Z) : Prop := 1 <= C /\ 1 <= R /\ 1 <= n /\ C * (R - 1) < n <= C * R.

Lemma grid_layout g n : 1 <= n -> grid (l_cols (layout g n)) (l_rows (layout g n)) n.
Proof.
  intros H. unfold layout, grid; cbn [l_cols l_rows]. set (C := Z.max 1 (g_fit g)). assert (1 <= C) by lia.
  rewrite Z.quot_div_nonneg by lia.
  pose proof (Z.div_mod (n + (C - 1)) C ltac:(lia)). pose proof (Z.mod_pos_bound (n + (C - 1)) C ltac:(lia)).
  set (q := (n + (C - 1)) / C) in *. set (r := (n + (C - 1)) mod C) in *. clearbody q r C. split; [lia|]. split; [nia|]. split; [lia|]. nia.
Qed.

Definition rowof (hz : bool) (C R i : Z) : Z := if hz then i / C else i mod R.
Definition strideof (hz : bool) (C : Z) : Z := if hz then C else 1.
Lemma match_row_eq c l i : 0 <= i -> 1 <= l_cols l -> 1 <= l_rows l -> match_row c l i = rowof (c_horiz c) (l_cols l) (l_rows l) i.
Proof.
  intros. unfold match_row, rowof. destruct (c_horiz c); [apply Z.quot_div_nonneg; lia|apply Z.rem_mod_nonneg; lia].
Qed.

Lemma row_range hz C R n i : grid C R n -> 0 <= i < n -> 0 <= rowof hz C R i < R.
Proof.
  intros (HC & HR & _ & Hn) Hi. unfold rowof. destruct hz.
  - pose proof (Z.div_mod i C ltac:(lia)). pose proof (Z.mod_pos_bound i C ltac:(lia)). nia.
  - apply Z.mod_pos_bound. lia.
Qed.
Lemma row_move hz C R i ny : 1 <= C -> 1 <= R -> 0 <= i -> 0 <= ny -> (hz = false -> ny < R) ->
  let i' := i + (ny - rowof hz C R i) * strideof hz C in
  0 <= i' /\ rowof hz C R i' = ny /\ (ny <= rowof hz C R i -> i' <= i) /\ (rowof hz C R i <= ny -> i <= i').
Proof.
  intros HC HR Hi Hn Hv. unfold rowof, strideof. destruct hz; cbv zeta.
  - pose proof (Z.div_mod i C ltac:(lia)) as E. pose proof (Z.mod_pos_bound i C ltac:(lia)) as B. set (q := i / C) in *. set (r := i mod C) in *.
    assert (Ei : i + (ny - q) * C = ny * C + r) by nia. rewrite Ei. split; [nia|]. split; [|split; nia].
    rewrite Z.div_add_l by lia. rewrite Z.div_small by lia. lia.
  - specialize (Hv eq_refl). pose proof (Z.div_mod i R ltac:(lia)) as E. pose proof (Z.mod_pos_bound i R ltac:(lia)) as B.
    assert (0 <= i / R) by (apply Z.div_pos; lia). set (q := i / R) in *. set (r := i mod R) in *.
    assert (Ei : i + (ny - r) * 1 = ny + q * R) by nia. rewrite Ei. split; [nia|]. split; [|split; nia].
    rewrite Z.mod_add by lia. apply Z.mod_small. lia.
Qed.
Lemma row_full C R n i : grid C R n -> 0 <= i -> i / C <= R - 2 -> i < n.
Proof.
  intros (HC & HR & _ & Hn) Hi Hr. pose proof (Z.div_mod i C ltac:(lia)). pose proof (Z.mod_pos_bound i C ltac:(lia)). nia.
Qed.
Lemma row_last C R n : grid C R n -> (n - 1) / C = R - 1.
Proof.
  intros (HC & HR & Hn1 & Hn). symmetry. apply Z.div_unique with (r := n - 1 - C * (R - 1)); nia.
Qed.

(** ** The invariant *)
Record good (c : cfg) (s : st) : Prop := mkGood {
  gd_lay : s_lay s = layout (l_geom (s_lay s)) (l_count (s_lay s));
  gd_geom : geom_ok c (l_geom (s_lay s)) (l_count (s_lay s));
  gd_index : 0 <= s_index s < l_count (s_lay s);
  gd_top : 0 <= s_top s;
  gd_disp : 0 < l_vis (s_lay s) -> 1 <= s_disp s <= Z.min (l_rows (s_lay s)) (l_vis (s_lay s)) /\
            (s_exp s = true -> s_disp s = Z.min (l_rows (s_lay s)) (l_vis (s_lay s))) /\
            (s_exp s = false -> l_rows (s_lay s) <= l_vis (s_lay s) /\ s_disp s = l_rows (s_lay s) \/
               0 < c_preview c /\ c_preview c + 1 < l_vis (s_lay s) /\ s_disp s = c_preview c /\ c_preview c + 1 < l_rows (s_lay s));
  gd_view : 0 < l_vis (s_lay s) -> s_top s <= match_row c (s_lay s) (s_index s) < s_top s + s_disp s }.

(** All but the display: what the keys leave to [navigated]. *)
Record pre (c : cfg) (s : st) : Prop := mkPre {
  pr_lay : s_lay s = layout (l_geom (s_lay s)) (l_count (s_lay s));
  pr_geom : geom_ok c (l_geom (s_lay s)) (l_count (s_lay s));
  pr_index : 0 <= s_index s < l_count (s_lay s);
  pr_top : 0 <= s_top s }.

Lemma good_pre c s : good c s -> pre c s.
Proof. intros []. constructor; auto. Qed.

Lemma layout_count g n : l_count (layout g n) = n. Proof. reflexivity. Qed.
Lemma layout_geom g n : l_geom (layout g n) = g. Proof. reflexivity. Qed.

Lemma vis_two g n : l_vis (layout g n) = 0 \/ 2 <= l_vis (layout g n).
Proof. cbn [layout l_vis]. cbv zeta. unfold visible_rows. cbv zeta. destruct (_ <? 2) eqn:E; lia. Qed.
Lemma vis_small c g n : geom_ok c g n -> l_vis (layout g n) < 32768.
Proof.
  intros (H1 & H2 & _). cbn [layout l_vis]. cbv zeta. unfold visible_rows. cbv zeta.
  assert (0 <= Z.quot (g_rows g) 10) by (apply Z.quot_pos; lia).
  repeat match goal with |- context [if ?b then _ else _] =>
    match b with context [if _ then _ else _] => fail 1 | _ => destruct b eqn:? end end; lia.
Qed.

Lemma pre_insert c h s : height_ok h -> pre c s -> pre c (insert_match h s).
Proof.
  intros Hh [Hl Hg Hi Ht]. destruct h as [h|]; [|constructor; auto]. unfold insert_match, update_layout. cbn [height_ok] in Hh.
  constructor; cbn [s_lay w_car w_ign w_lay s_index s_top layout l_geom l_count]; auto.
  destruct Hg as (A & B & C & D & E & F & G).
  split; [exact Hh|]. split; [exact B|]. split; [|split; [exact D|split; [exact E|split; [exact F|exact G]]]].
  rewrite Hl in C. exact C.
Qed.

Section Inv.
Context (c : cfg).

Lemma pre_grid s : pre c s -> grid (l_cols (s_lay s)) (l_rows (s_lay s)) (l_count (s_lay s)).
Proof.
  intros [Hl Hg Hi Ht]. rewrite Hl at 1 2. apply grid_layout. lia.
Qed.
Lemma pre_row s i : pre c s -> 0 <= i < l_count (s_lay s) -> 0 <= match_row c (s_lay s) i < l_rows (s_lay s).
Proof.
  intros H Hi. pose proof (pre_grid s H) as G. destruct G as (GC & GR & GN & GB).
  rewrite match_row_eq by lia. eapply row_range; [exact (conj GC (conj GR (conj GN GB)))|exact Hi].
Qed.

Lemma ut_spec s : pre c s -> 0 < l_vis (s_lay s) -> 1 <= s_disp s <= Z.min (l_rows (s_lay s)) (l_vis (s_lay s)) ->
  (s_exp s = true -> s_disp s = Z.min (l_rows (s_lay s)) (l_vis (s_lay s))) ->
  let y := match_row c (s_lay s) (s_index s) in
  let t := s_top (update_top c s) in
  update_top c s = set_top t s /\ 0 <= t <= y /\
  (t <= s_top s \/ t <= Z.max 0 (y - (Z.min (l_rows (s_lay s)) (l_vis (s_lay s)) - 1)) \/ (s_exp s = true /\ t <= Z.max 0 (l_rows (s_lay s) - l_vis (s_lay s)))) /\
  (y - (Z.min (l_rows (s_lay s)) (l_vis (s_lay s)) - 1) <= t).
Proof.
  intros H Hv Hd He. cbv zeta. pose proof (pre_row s _ H (pr_index _ _ H)) as Hy. pose proof (pr_top _ _ H) as Ht.
  unfold update_top. cbv zeta. set (y := match_row c (s_lay s) (s_index s)) in *.
  set (R := l_rows (s_lay s)) in *. set (V := l_vis (s_lay s)) in *.
  assert (K : forall s1 t1, s1 = set_top t1 s -> 0 <= t1 <= y -> (t1 <= s_top s \/ t1 <= Z.max 0 (y - (Z.min R V - 1))) -> y - (Z.min R V - 1) <= t1 ->
    let u := (if s_exp s1 && negb (s_ign s1)
      then if 0 <? scroll_offset c s1
           then if Z.max 0 (y - scroll_offset c s1) <? s_top s1 then set_top (Z.max 0 (y - scroll_offset c s1)) s1
                else if s_top s1 <? Z.min (Z.max 0 (R - V)) (y + scroll_offset c s1 - s_disp s1 + 1)
                     then set_top (Z.min (Z.max 0 (R - V)) (y + scroll_offset c s1 - s_disp s1 + 1)) s1 else s1
           else s1 else s1) in
    u = set_top (s_top u) s /\ 0 <= s_top u <= y /\
    (s_top u <= s_top s \/ s_top u <= Z.max 0 (y - (Z.min R V - 1)) \/ s_exp s = true /\ s_top u <= Z.max 0 (R - V)) /\ y - (Z.min R V - 1) <= s_top u).
  { intros s1 t1 -> Ht1 Hc Hb. cbv zeta. change (s_exp (set_top t1 s)) with (s_exp s). change (s_ign (set_top t1 s)) with (s_ign s).
    change (scroll_offset c (set_top t1 s)) with (scroll_offset c s). change (s_top (set_top t1 s)) with t1. change (s_disp (set_top t1 s)) with (s_disp s).
    destruct (s_exp s && negb (s_ign s)) eqn:E1; [|cbn [s_top set_top]; split; [reflexivity|]; lia].
    apply andb_true_iff in E1 as [E1 _]. specialize (He E1).
    assert (Ho : 0 <= scroll_offset c s <= (s_disp s - 1) / 2).
    { unfold scroll_offset. rewrite Z.quot_div_nonneg by lia. destruct (c_offset c <=? 0) eqn:?; lia. }
    set (o := scroll_offset c s) in *.
    destruct (0 <? o) eqn:Eo; [|cbn [s_top set_top]; split; [reflexivity|]; lia].
    destruct (Z.max 0 (y - o) <? t1) eqn:E2.
    - cbn [s_top set_top]. split; [reflexivity|]. lia.
    - destruct (t1 <? _) eqn:E3; cbn [s_top set_top]; (split; [reflexivity|]); (split; [lia|]); (split; [|lia]). 2: lia. right. right. split; [exact E1|]. lia. }
  destruct (y <? s_top s) eqn:E.
  - apply (K (set_top y s) y); [reflexivity|lia|lia|lia].
  - destruct (s_top s <? Z.max 0 (y - (Z.min R V - 1))) eqn:E'.
    + apply (K (set_top _ s) (Z.max 0 (y - (Z.min R V - 1)))); [reflexivity|lia|lia|lia].
    + apply (K s (s_top s)); [destruct s; reflexivity|lia|lia|lia].
Qed.

(** What [display] gives *)
Lemma display_spec s : pre c s -> 0 < l_vis (s_lay s) ->
  good c (display c s) /\ s_lay (display c s) = s_lay s /\ s_index (display c s) = s_index s /\ s_prev (display c s) = s_prev s /\
  s_latch (display c s) = s_latch s /\
  (s_exp s = true -> s_exp (display c s) = true) /\
  (s_exp (display c s) = false -> s_exp s = false /\ match_row c (s_lay s) (s_index s) < c_preview c) /\
  let t := s_top (display c s) in let y := match_row c (s_lay s) (s_index s) in
  (t <= s_top s \/ t <= Z.max 0 (y - (Z.min (l_rows (s_lay s)) (l_vis (s_lay s)) - 1)) \/
   (s_exp (display c s) = true /\ t <= Z.max 0 (l_rows (s_lay s) - l_vis (s_lay s)))).
Proof.
  intros H Hv. pose proof (pre_row s _ H (pr_index _ _ H)) as Hy. destruct H as [Hl Hg Hi Ht].
  assert (Hv2 : 2 <= l_vis (s_lay s)) by (pose proof (vis_two (l_geom (s_lay s)) (l_count (s_lay s))) as X; rewrite <- Hl in X; lia).
  unfold display. cbv zeta. replace (l_vis (s_lay s) <=? 0) with false by lia.
  set (y := match_row c (s_lay s) (s_index s)) in *. set (R := l_rows (s_lay s)) in *. set (V := l_vis (s_lay s)) in *.
  set (x := if s_exp s then true else _).
  set (rows := Z.min V (if negb x && (c_preview c + 1 <? R) then c_preview c else R)).
  assert (Hx : x = false -> s_exp s = false /\ 0 < c_preview c /\ c_preview c + 1 < V /\ y < c_preview c).
  { unfold x. destruct (s_exp s); [discriminate|]. destruct ((c_preview c <=? 0) || (V <=? c_preview c + 1)) eqn:E; [discriminate|].
    replace (0 <=? s_index s) with true by lia. intros. lia. }
  assert (Hr : 1 <= rows <= Z.min R V) by (unfold rows; destruct x; cbn [negb andb]; [|specialize (Hx eq_refl); destruct (_ <? R) eqn:?]; lia).
  assert (Hr1 : x = true -> rows = Z.min R V) by (unfold rows; intros ->; cbn [negb andb]; lia).
  assert (Hxt : s_exp s = true -> x = true) by (unfold x; intros ->; reflexivity).
  clearbody x.
  set (s1 := w_disp rows (w_exp x s)).
  assert (P1 : pre c s1) by (constructor; unfold s1; cbn [s_lay w_disp w_exp s_index s_top]; auto).
  destruct (ut_spec s1 P1 Hv Hr Hr1) as (E & A & B & C). cbv zeta in *.
  change (match_row c (s_lay s1) (s_index s1)) with y in *. change (l_rows (s_lay s1)) with R in *. change (l_vis (s_lay s1)) with V in *.
  change (s_top s1) with (s_top s) in *. change (s_exp s1) with x in *.
  set (t := s_top (update_top c s1)) in *. clearbody t. rewrite E. unfold s1.
  cbn [w_car set_top w_disp w_exp s_lay s_index s_top s_disp s_exp s_ign s_prev s_latch s_car s_bar].
  split; [|split; [reflexivity|split; [reflexivity|split; [reflexivity|split; [reflexivity|split; [|split]]]]]].
  - constructor; cbn [w_car set_top w_disp w_exp s_lay s_index s_top s_disp s_exp]; auto; [lia|intros _|intros _].
    + fold R V. split; [exact Hr|]. split; [exact Hr1|]. intros Ex. specialize (Hx Ex). subst x. unfold rows. cbn [negb andb]. destruct (c_preview c + 1 <? R) eqn:?; lia.
    + fold y R V. split; [lia|]. destruct x; [rewrite Hr1 by reflexivity; lia|]. specialize (Hx eq_refl). unfold rows. cbn [negb andb]. destruct (c_preview c + 1 <? R) eqn:?; lia.
  - exact Hxt.
  - intros Ex. specialize (Hx Ex). tauto.
  - exact B.
Qed.

Lemma display_none s : l_vis (s_lay s) <= 0 -> display c s = s.
Proof. intros H. unfold display. cbv zeta. replace (l_vis (s_lay s) <=? 0) with true by lia. reflexivity. Qed.

Lemma good_display s : pre c s -> good c (display c s).
Proof.
  intros H. destruct (Z.le_gt_cases (l_vis (s_lay s)) 0) as [Hv|Hv]; [|apply display_spec; auto; lia].
  rewrite display_none by assumption. destruct H as [H1 H2 H3 H4]. constructor; auto; intros; lia.
Qed.
Lemma good_navigated h s : height_ok h -> pre c s -> good c (navigated c h s).
Proof. intros. unfold navigated. apply good_display, pre_insert; auto. Qed.
End Inv.
