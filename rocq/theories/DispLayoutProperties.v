(** C78-C80: how the input line is laid out in rows, which rows are shown, where a click is. *)
From Verif Require Import Base UtfSpec WidthModel DispModel DispSpec DispTerm DispDiff DispUpdate DispRedraw DispWc DispProperties DispRows DispLayout DispFits DispWcRows DispClick DispMarks DispScroll.
Open Scope nat_scope.

Lemma unicode_bytes ce t : unicode t -> bytes (wc_gl ce t) = blen t.
Proof. intro H. unfold bytes. rewrite (it_concat _ _ _ (wc_iterates ce) t H). reflexivity. Qed.

(** ** C78 *)
(** Every character is shown once and in order, rows are filled, and the cursor is before the character at [point]; see [layout] and
    [cursor_at] in DispRows.v *)
Theorem input_layout ce W nls botlin col buffer point :
  unicode buffer -> no_c1 buffer -> 2 <= W -> col < W -> point <= blen buffer ->
  exists rs v, let '(lines, vpos, cpos) := parse (wc_gl ce) W nls botlin col buffer point in
    lines = repeat (fresh 0 0) botlin ++ map fst rs /\ layout W nls (wc_gl ce buffer) col rs /\ vpos = botlin + v /\ cursor_at nls (wc_gl ce buffer) rs point v cpos.
Proof.
  intros Hu Hc HW Hcol Hp. apply parse_layout; [lia|lia|rewrite unicode_bytes by exact Hu; exact Hp|]. apply wc_rows; assumption.
Qed.
Print Assumptions input_layout.

(** the cursor is within the width unless it is on a newline *)
Theorem cursor_in_row ce W nls botlin col buffer point :
  unicode buffer -> no_c1 buffer -> 2 <= W -> col < W -> point <= blen buffer ->
  (forall a f b, buffer = a ++ (10%N, f) :: b -> nls = true -> blen a <> point) ->
  let '(lines, vpos, cpos) := parse (wc_gl ce) W nls botlin col buffer point in vpos < length lines /\ cpos < W.
Proof.
  intros Hu Hc HW Hcol Hp Hn. pose proof (input_layout ce W nls botlin col buffer point Hu Hc HW Hcol Hp) as (rs & v & H). destruct (parse (wc_gl ce) W nls botlin col buffer point) as [[lines vpos] cpos]. destruct H as (El & L & Ev & C).
  destruct C as [(pre & g & post & q & Eg & Hpt & Eq & R1 & l & ps & R2 & p1 & p2 & Er & Evr & Ep & Ef & Ec & Eqq)|(Ept & R1 & l & ps & Er & Evr & Ec)].
  - split; [rewrite El, Ev, Evr, Er, app_length, repeat_length, map_length, app_length; cbn [length]; lia|].
    destruct q as [z|].
    + destruct Eqq as (p3 & Ep3). pose proof (lo_laid _ _ _ _ _ L) as F. rewrite Er in F. apply Forall_app in F as [_ F]. inversion F as [|? ? (_ & Lc & Lw) _]; subst. cbn [fst snd] in *. rewrite span_app in Lc. cbn [span fold_right] in Lc. fold (span p3) in Lc.
      assert (Hz : 1 <= snd z). { assert (Hin : In g (wc_gl ce buffer)) by (rewrite Eg; apply in_or_app; right; left; reflexivity). pose proof (wc_rows ce nls W buffer Hu Hc HW) as Fr. rewrite Forall_forall in Fr. destruct (Fr g Hin) as (_ & _ & Fw). unfold pieces in Eq. destruct (newline nls g); [discriminate|]. specialize (Fw eq_refl). destruct (fst g) as [|[c f] r]; [discriminate|]. destruct (snd g <? 0)%Z eqn:Es; cbn [hd_error] in Eq; injection Eq as <-; cbn [snd]; lia. }
      lia.
    + exfalso. assert (Hnl : newline nls g = true). { unfold pieces in Eq. destruct (newline nls g); [reflexivity|]. destruct (fst g) as [|[c f] r]; [discriminate|]. destruct (snd g <? 0)%Z; discriminate. }
      assert (Hin : In g (wc_gl ce buffer)) by (rewrite Eg; apply in_or_app; right; left; reflexivity).
      pose proof (wc_facts ce buffer Hu) as F. rewrite Forall_forall in F. destruct (F g Hin) as (_ & F2 & F3). unfold newline in Hnl. apply andb_true_iff in Hnl as [Hnls Hten]. destruct (fst g) as [|[c f] r] eqn:Efg; [discriminate|]. assert (c = 10%N) by lia. subst c. destruct (F2 (F3 eq_refl)) as (c & f' & E1 & _). injection E1 as <- <- ->.
      pose proof (it_concat _ _ _ (wc_iterates ce) buffer Hu) as Ecat. rewrite Eg, map_app, concat_app in Ecat. cbn [map concat] in Ecat. rewrite Efg in Ecat. cbn [app] in Ecat.
      apply (Hn (concat (map fst pre)) f (concat (map fst post)) (eq_sym Ecat) Hnls). fold (bytes pre). cbn [blen fst] in Hpt. assert (U : ulen 10%N = 1) by reflexivity. lia.
  - pose proof (lo_last _ _ _ _ _ L) as (R1' & l' & ps' & Er' & _ & _ & Hlc & _). rewrite Er in Er'. apply app_inj_tail in Er' as [<- E2]. injection E2 as <- <-.
    split; [rewrite El, Ev, Evr, Er, app_length, repeat_length, map_length, app_length; cbn [length]; lia|].
    pose proof (lo_laid _ _ _ _ _ L) as F. rewrite Er in F. apply Forall_app in F as [_ F]. inversion F as [|? ? (_ & Lc & Lw) _]; subst. cbn [fst snd] in *. lia.
Qed.
Print Assumptions cursor_in_row.
(** on a newline after a full row it is not *)
Definition cursor_in_row_any : Prop := forall ce W nls botlin col buffer point, unicode buffer -> no_c1 buffer -> 2 <= W -> col < W -> point <= blen buffer ->
  let '(lines, vpos, cpos) := parse (wc_gl ce) W nls botlin col buffer point in vpos < length lines /\ cpos < W.
Lemma no_c1_b t : forallb (fun c : tch => (fst c <? 128)%N) t = true -> no_c1 t.
Proof. intro H. rewrite forallb_forall in H. apply Forall_forall. intros c Hc. specialize (H c Hc). lia. Qed.
Theorem cursor_in_row_any_refuted : ~ cursor_in_row_any.
Proof.
  intro H. specialize (H true 4 true 0 0 (plain [97; 98; 99; 100; 10]%N) 4 (unicode_b (plain [97; 98; 99; 100; 10]%N) eq_refl) (no_c1_b (plain [97; 98; 99; 100; 10]%N) eq_refl) ltac:(lia) ltac:(lia) ltac:(cbn; lia)).
  vm_compute in H. lia.
Qed.
Print Assumptions cursor_in_row_any_refuted.
(** with a control character of two bytes (U+0080 to U+009F) the cursor is not after the last character when point is at the end *)
Definition cursor_at_end_any : Prop := forall ce W nls col buffer, unicode buffer -> 2 <= W -> col < W ->
  let '(lines, vpos, cpos) := parse (wc_gl ce) W nls 0 col buffer (blen buffer) in S vpos = length lines /\ cpos = l_lastcol (last lines (fresh 0 0)).
Theorem cursor_at_end_any_refuted : ~ cursor_at_end_any.
Proof. intro H. specialize (H true 20 true 2 (plain [133; 97]%N) (unicode_b (plain [133; 97]%N) eq_refl) ltac:(lia) ltac:(lia)). vm_compute in H. lia. Qed.
Print Assumptions cursor_at_end_any_refuted.

(** what follows a control character does not combine with the X of ^X *)
Definition no_join (ce : bool) (t : text) : Prop := forall a c f d b, t = a ++ (c, f) :: d :: b -> (c < 32 \/ 127 <= c)%N -> wc_solid ce (fst d) = true.
Lemma join_solid ce nls buffer : unicode buffer -> no_join ce buffer ->
  forall a g h b, wc_gl ce buffer = a ++ g :: h :: b -> (snd g < 0)%Z -> newline nls g = false -> starts_solid (wc_solid ce) (fst h).
Proof.
  intros Hu Hj a g h b Eg Hw _. pose proof (wc_facts ce buffer Hu) as F. rewrite Forall_forall in F. destruct (F g) as (_ & F2 & _); [rewrite Eg; apply in_or_app; right; left; reflexivity|]. destruct (F2 Hw) as (c & f & Ef & Hc).
  pose proof (it_ne _ _ _ (wc_iterates ce) buffer Hu) as Fn. rewrite Forall_forall in Fn. specialize (Fn h). destruct (fst h) as [|d r] eqn:Eh; [exact Logic.I|]. cbn [starts_solid].
  pose proof (it_concat _ _ _ (wc_iterates ce) buffer Hu) as Ecat. rewrite Eg, map_app, concat_app in Ecat. cbn [map concat] in Ecat. rewrite Ef, Eh in Ecat. cbn [app] in Ecat.
  apply (Hj _ c f d _ (eq_sym Ecat)). lia.
Qed.
(** Redrawing any row after any edit: [b1] is the old content of the line, [b2] the new one. *)
Theorem edit_redraws ce W before wk nls bot1 bot2 col1 col2 b1 b2 pt1 pt2 i o d p row :
  unicode b1 -> no_c1 b1 -> no_join ce b1 -> unicode b2 -> no_c1 b2 -> no_join ce b2 -> one_face (wc_gl ce) b2 ->
  2 <= W -> col1 < W -> col2 < W -> pt1 <= blen b1 -> pt2 <= blen b2 ->
  nth_error (skipn bot1 (fst (fst (parse (wc_gl ce) W nls bot1 col1 b1 pt1)))) i = o ->
  nth_error (skipn bot2 (fst (fst (parse (wc_gl ce) W nls bot2 col2 b2 pt2)))) i = Some d ->
  (wk = true -> match o with Some ol => l_x ol <= l_x d | None => True end) ->
  whole p -> old_row (wc_gl ce) W p o (l_x d) row ->
  (match o with Some ol => l_lastcol ol <= l_lastcol d | None => True end \/ tidy (l_text d)) ->
  on_terminal (wc_gl ce) W (update_line (wc_gl ce) W before wk false o d) row = shown (wc_gl ce) W p (l_text d).
Proof.
  intros U1 C1 J1 U2 C2 J2 F2 HW H1 H2 P1 P2 Eo Ed Hwk Hp Hr Hs.
  pose proof (input_layout ce W nls bot1 col1 b1 pt1 U1 C1 HW H1 P1) as (rs1 & v1 & L1). destruct (parse (wc_gl ce) W nls bot1 col1 b1 pt1) as [[ls1 vp1] cp1]. destruct L1 as (E1 & L1 & _ & _).
  pose proof (input_layout ce W nls bot2 col2 b2 pt2 U2 C2 HW H2 P2) as (rs2 & v2 & L2). destruct (parse (wc_gl ce) W nls bot2 col2 b2 pt2) as [[ls2 vp2] cp2]. destruct L2 as (E2 & L2 & _ & _).
  cbn [fst] in Eo, Ed. rewrite E1, skipn_app_l in Eo by (rewrite repeat_length; reflexivity). rewrite E2, skipn_app_l in Ed by (rewrite repeat_length; reflexivity).
  apply nth_error_In in Ed as Hin. apply in_map_iff in Hin as (r2 & Er2 & Hin2).
  destruct (layout_fits (wc_gl ce) W scalar (wc_solid ce) (wc_iterates ce) nls b2 U2 (wc_ctl ce b2 U2) (join_solid ce nls b2 U2 J2) col2 rs2 r2 L2 Hin2) as (A1 & A2 & _).
  pose proof (layout_face (wc_gl ce) W scalar (wc_solid ce) (wc_iterates ce) nls b2 U2 (wc_ctl ce b2 U2) (join_solid ce nls b2 U2 J2) col2 rs2 r2 L2 Hin2 F2) as A3. rewrite Er2 in A1, A2, A3.
  apply redraw_row; try assumption.
  - destruct o as [ol|]; [|exact Logic.I]. apply nth_error_In in Eo as Hin. apply in_map_iff in Hin as (r1 & Er1 & Hin1).
    destruct (layout_fits (wc_gl ce) W scalar (wc_solid ce) (wc_iterates ce) nls b1 U1 (wc_ctl ce b1 U1) (join_solid ce nls b1 U1 J1) col1 rs1 r1 L1 Hin1) as (B1 & B2 & _). rewrite Er1 in B1, B2. auto.
  - right. exact Hs.
Qed.
Print Assumptions edit_redraws.

(** ** C79 *)
(** The row of the cursor is one of those shown, if the prompt's last line does not wrap. *)
Theorem cursor_row_shown ce W nls col buffer point maxrows height top :
  unicode buffer -> no_c1 buffer -> 2 <= W -> col < W -> point <= blen buffer -> 2 <= maxrows <= height ->
  let '(lines, vpos, cpos) := parse (wc_gl ce) W nls 0 col buffer point in
  let off := bottom_offset 0 maxrows height (length lines) in
  let t := scroll_top W 0 (length lines) vpos cpos off (fun i => l_x (nth i lines (fresh 0 0))) top in
  t <= vpos <= t + off /\ t + off < length lines /\ off < maxrows
  /\ ~ (0 < t /\ vpos = t /\ cpos = l_x (nth t lines (fresh 0 0))).
Proof.
  intros Hu Hc HW Hcol Hp Hm. pose proof (input_layout ce W nls 0 col buffer point Hu Hc HW Hcol Hp) as (rs & v & H). destruct (parse (wc_gl ce) W nls 0 col buffer point) as [[lines vpos] cpos]. destruct H as (El & L & Ev & C). cbn [repeat app Nat.add] in El, Ev. subst vpos.
  assert (Hv : v < length rs). { destruct C as [(pre & g & post & q & Eg & Hpt & Eq & R1 & l & ps & R2 & p1 & p2 & Er & Evr & _)|(_ & R1 & l & ps & Er & Evr & _)]; rewrite Evr, Er, app_length; cbn [length]; lia. }
  assert (Hl : length lines = length rs) by (rewrite El, map_length; reflexivity).
  assert (X0 : forall t, 0 < t < length rs -> l_x (nth t lines (fresh 0 0)) = 0).
  { intros t Ht. rewrite El. assert (K : forall R t, linked W R -> 0 < t < length R -> l_x (nth t (map fst R) (fresh 0 0)) = 0).
    { clear. induction R as [|r R IH]; intros t HK Ht; [cbn [length] in Ht; lia|]. destruct t as [|t]; [lia|]. cbn [map nth]. cbn [linked] in HK. destruct HK as [HF HK]. cbn [length] in Ht. destruct R as [|r' R]; [cbn [length] in Ht; lia|]. destruct t as [|t]; [cbn [map nth]; apply HF|]. apply (IH (S t) HK). cbn [length] in *. lia. }
    apply K; [exact (lo_linked _ _ _ _ _ L)|exact Ht]. }
  cbv zeta. set (off := bottom_offset 0 maxrows height (length lines)). assert (Ho : off = length lines - 1 \/ 1 <= off < length lines) by (unfold off, bottom_offset; lia).
  pose proof (scroll_visible W (length lines) v cpos off (fun i => l_x (nth i lines (fresh 0 0))) top ltac:(lia) Ho) as S1. cbv zeta in S1. set (t := scroll_top W 0 (length lines) v cpos off _ top) in *.
  split; [lia|]. split; [lia|]. split; [unfold off, bottom_offset; lia|]. intros (Ht & Evt & Ecp).
  assert (Hx0 : l_x (nth t lines (fresh 0 0)) = 0) by (apply X0; lia).
  assert (Ho1 : 1 <= off < length lines) by lia.
  pose proof (scroll_unmarked W (length lines) v cpos off (fun i => l_x (nth i lines (fresh 0 0))) top ltac:(lia) Ho1 HW) as S2. cbv zeta in S2. fold t in S2. apply S2. split; [exact Ht|]. split; [exact Evt|]. split; lia.
Qed.
Print Assumptions cursor_row_shown.
Theorem no_needless_scroll W cnt vpos cpos off x_of top : vpos < cnt -> top <= vpos <= top + off -> top + off <= cnt - 1 ->
  (0 < top -> vpos = top -> ~ x_of top <= cpos < x_of top + 1) -> (top + off < cnt - 1 -> vpos = top + off -> cpos + 1 < W \/ W <= cpos) ->
  scroll_top W 0 cnt vpos cpos off x_of top = top.
Proof. apply scroll_stays. Qed.
Print Assumptions no_needless_scroll.
(** if the prompt's last line takes more than one row, false: the row of the prompt is counted twice *)
Definition cursor_row_shown_any : Prop := forall W botlin cnt vpos cpos maxrows height x_of top, botlin <= vpos < cnt -> 2 <= maxrows -> botlin + maxrows <= height ->
  let off := bottom_offset botlin maxrows height cnt in let t := scroll_top W botlin cnt vpos cpos off x_of top in t <= vpos <= t + off.
Theorem cursor_row_shown_any_refuted : ~ cursor_row_shown_any.
Proof. intro H. specialize (H 80 1 6 2 5 3 10 (fun _ => 0) 3 ltac:(lia) ltac:(lia) ltac:(lia)). vm_compute in H. lia. Qed.
Print Assumptions cursor_row_shown_any_refuted.

(** The markers: the first row shown has < for its first character if that takes one column *)
Theorem top_marker ce l g r : unicode (l_text l) -> wc_gl ce (l_text l) = g :: r -> wid g = 1 -> starts_solid (wc_solid ce) (concat (map fst r)) ->
  cells (wc_gl ce) (l_text (top_mark (wc_gl ce) l)) = Glyph [(60%N, f_scroll)] 1 :: skipn 1 (cells (wc_gl ce) (l_text l)).
Proof. intros Hu Eg Hw Hs. exact (proj1 (top_mark_ok (wc_gl ce) scalar (wc_solid ce) (wc_iterates ce) l g r Hu Eg Hw Hs)). Qed.
Print Assumptions top_marker.
(** the last row shown has the characters that fit, blanks, and > in the last column but one *)
Theorem bottom_marker ce W cw l body : unicode (l_text l) -> l_text l = body ++ spaces (l_trail l) -> l_x l = 0 -> l_lastcol l = cols cw body -> 2 < l_lastcol l -> 2 <= W ->
  wc_gl ce body = map (fun c => ([c], Z.of_nat (cw (fst c)))) body -> Forall (fun c : tch => 1 <= cw (fst c)) body ->
  exists a b, body = a ++ b /\ match b with [] => True | c :: _ => W - 2 < cols cw (a ++ [c]) end /\
    cells (wc_gl ce) (l_text (bottom_mark W cw l)) = cells (wc_gl ce) a ++ blanks (W - 2 - length (cells (wc_gl ce) a)) ++ [Glyph [(62%N, f_scroll)] 1] /\ length (cells (wc_gl ce) (l_text (bottom_mark W cw l))) = W - 1.
Proof.
  intros Hu Et Ex El H2 HW Eg Hc. destruct (bottom_mark_ok (wc_gl ce) W scalar (wc_solid ce) (wc_iterates ce) cw l body Hu Et Ex El H2 HW Eg Hc) as (a & b & A & B & C & D & _). exists a, b. auto.
Qed.
Print Assumptions bottom_marker.
(** if the first character is wide the rest of the row moves to the left *)
Definition top_marker_any : Prop := forall ce l, unicode (l_text l) -> l_text l <> [] -> skipn 2 (cells (wc_gl ce) (l_text (top_mark (wc_gl ce) l))) = skipn 2 (cells (wc_gl ce) (l_text l)).
Definition wide_row : line := mkL (plain [26085; 97; 98]%N) 0 5 0 4 0 0 false true.
Theorem top_marker_any_refuted : ~ top_marker_any.
Proof. intro H. specialize (H true wide_row (unicode_b (l_text wide_row) eq_refl) ltac:(discriminate)). vm_compute in H. discriminate H. Qed.
Print Assumptions top_marker_any_refuted.
(** the cursor can be on the marker of the last row: it is in the last column but one, the check is for the last one *)
Definition cursor_off_marker : Prop := forall W cnt vpos cpos off x_of top, vpos < cnt -> 1 <= off < cnt -> cpos < W -> 4 <= W ->
  let t := scroll_top W 0 cnt vpos cpos off x_of top in ~ (t + off < cnt - 1 /\ vpos = t + off /\ cpos = W - 2).
Theorem cursor_off_marker_refuted : ~ cursor_off_marker.
Proof. intro H. specialize (H 80 5 1 78 1 (fun _ => 0) 0 ltac:(lia) ltac:(lia) ltac:(lia) ltac:(lia)). vm_compute in H. apply H. split; [lia|]. split; reflexivity. Qed.
Print Assumptions cursor_off_marker_refuted.

(** ** C80 *)
Definition plain_text (t : text) : Prop := Forall (fun c : tch => (32 <= fst c < 127)%N \/ (160 <= fst c)%N) t.
Lemma plain_no_c1 t : plain_text t -> no_c1 t. Proof. apply Forall_impl. intros c H. lia. Qed.
Lemma plain_plainw ce nls buffer : unicode buffer -> plain_text buffer -> Forall (plainw nls) (wc_gl ce buffer).
Proof.
  intros Hu Hp. pose proof (wc_facts ce buffer Hu) as F. pose proof (it_ne _ _ _ (wc_iterates ce) buffer Hu) as Fn. pose proof (it_pos _ _ _ (wc_iterates ce) buffer Hu) as Fp. pose proof (it_concat _ _ _ (wc_iterates ce) buffer Hu) as Ec.
  apply Forall_forall. intros g Hg. rewrite Forall_forall in F, Fn, Fp. specialize (F g Hg). specialize (Fn g Hg). specialize (Fp g Hg). cbn beta in F. destruct F as (F1 & F2 & F3).
  assert (Hin : forall c, In c (fst g) -> (32 <= fst c < 127)%N \/ (160 <= fst c)%N). { intros c Hc. unfold plain_text in Hp. rewrite Forall_forall in Hp. apply Hp. rewrite <- Ec. apply in_concat. exists (fst g). split; [apply in_map; exact Hg|exact Hc]. }
  assert (Hz : (0 <= snd g)%Z). { destruct (snd g <? 0)%Z eqn:E; [|lia]. destruct (F2 ltac:(lia)) as (c & f & Ef & Hc). rewrite Ef in Hin. specialize (Hin (c, f) (or_introl eq_refl)). cbn [fst] in Hin. lia. }
  split; [exact Fn|]. split.
  - unfold newline. destruct (fst g) as [|[c f] r]; [apply andb_false_r|]. specialize (Hin (c, f) (or_introl eq_refl)). cbn [fst] in Hin. replace (c =? 10)%N with false by lia. apply andb_false_r.
  - split; [exact Hz|]. unfold wid in Fp. destruct (snd g <? 0)%Z eqn:E; lia.
Qed.
(** A click on any cell of a character gives the position of that character, for text without control characters. *)
Theorem click_on_char ce W nls col buffer point x :
  unicode buffer -> plain_text buffer -> 2 <= W -> col < W -> point <= blen buffer ->
  exists rs, fst (fst (parse (wc_gl ce) W nls 0 col buffer point)) = map fst rs /\ layout W nls (wc_gl ce buffer) col rs /\
    (forall R1 l p1 t w p2 R2, rs = R1 ++ (l, p1 ++ (t, w) :: p2) :: R2 -> l_x l + span p1 <= x < l_x l + span p1 + w ->
       exists a b, buffer = a ++ t ++ b /\ a = concat (map ptext (map snd R1)) ++ ptext p1 /\ click (wc_gl ce) W col buffer x (length R1) = blen a) /\
    (forall R1 l ps R2, rs = R1 ++ (l, ps) :: R2 -> l_lastcol l <= x < W -> click (wc_gl ce) W col buffer x (length R1) = l_end l).
Proof.
  intros Hu Hp HW Hcol Hpt. pose proof (input_layout ce W nls 0 col buffer point Hu (plain_no_c1 _ Hp) HW Hcol Hpt) as (rs & v & H). destruct (parse (wc_gl ce) W nls 0 col buffer point) as [[lines vpos] cpos]. destruct H as (El & L & _ & _). cbn [repeat app] in El.
  pose proof (it_concat _ _ _ (wc_iterates ce) buffer Hu) as Ecat. pose proof (plain_plainw ce nls buffer Hu Hp) as Hpw.
  exists rs. cbn [fst]. split; [exact El|]. split; [exact L|]. split.
  - intros R1 l p1 t w p2 R2 Er Hx. destruct (click_char W nls (wc_gl ce) buffer Ecat Hpw col rs R1 l p1 t w p2 R2 x L Er Hx) as (pre & g & post & Eg & Ea & Et & Ec).
    exists (concat (map fst pre)), (concat (map fst post)). split; [rewrite <- Ecat, Eg, map_app, concat_app; cbn [map concat]; rewrite Et; reflexivity|]. split; [|exact Ec].
    assert (Hpre : Forall (plainw nls) pre) by (rewrite Eg in Hpw; apply Forall_app in Hpw; tauto). rewrite (all_plain nls pre Hpre) in Ea.
    assert (Hfl : forall R X, flat R ++ map Some p1 = map Some X -> concat (map ptext (map snd R)) ++ ptext p1 = ptext X).
    { clear. induction R as [|r R IH]; intros X E; cbn [flat flat_map app map concat] in *; [apply map_some_inj in E; rewrite E; reflexivity|]. fold (flat R) in E. rewrite <- app_assoc in E. symmetry in E. apply map_eq_app in E as (X1 & X2 & EX & E1 & E2). symmetry in E1. apply flat1_some in E1 as [_ E1]. rewrite EX, ptext_app, E1, <- app_assoc. f_equal. apply IH. symmetry. exact E2. }
    etransitivity; [|symmetry; exact (Hfl R1 (map pc pre) (eq_sym Ea))]. symmetry. apply pc_text.
  - intros R1 l ps R2 Er Hx. exact (click_end W nls (wc_gl ce) buffer Ecat Hpw col rs R1 l ps R2 x L Er Hx).
Qed.
Print Assumptions click_on_char.
(** with a newline the click goes past the character: clicking on b in the second row of a, newline, b gives the end of the line *)
Definition click_newline_any : Prop := forall ce W col buffer v x c f, unicode buffer -> no_c1 buffer -> 2 <= W -> col < W ->
  let '(lines, _, _) := parse (wc_gl ce) W true 0 col buffer 0 in
  match nth_error lines v with
  | Some l => l_text l = [(c, f)] -> x = l_x l -> click (wc_gl ce) W col buffer x v = l_start l
  | None => True
  end.
Theorem click_newline_any_refuted : ~ click_newline_any.
Proof. intro H. specialize (H true 20 2 (plain [97; 10; 98]%N) 1 0 98%N f_normal (unicode_b (plain [97; 10; 98]%N) eq_refl) (no_c1_b (plain [97; 10; 98]%N) eq_refl) ltac:(lia) ltac:(lia)). vm_compute in H. specialize (H eq_refl eq_refl). discriminate H. Qed.
Print Assumptions click_newline_any_refuted.

(** ** Examples: the hypotheses hold of ordinary lines *)
Definition ex_buf : text := plain [97; 98; 1; 99; 10; 26085; 26412; 100]%N.
Example ex_buf_ok : unicode ex_buf /\ no_c1 ex_buf /\ no_join true ex_buf.
Proof.
  split; [exact (unicode_b ex_buf eq_refl)|]. split; [apply Forall_forall; intros c Hc; cbn in Hc; repeat (destruct Hc as [<-|Hc]; [cbn; lia|]); contradiction|].
  intros a c f d b E Hc. repeat (destruct a as [|? a]; [cbn in E; injection E; intros; subst; cbn in Hc; first [lia|reflexivity]|]; cbn in E; injection E; clear E; intros E ?; subst). destruct a; discriminate E.
Qed.
(** five columns, prompt of two: the rows are ab^, A c, the wide two and d; the cursor at byte 6 is on the first wide character *)
Example ex_rows : let '(lines, v, c) := parse (wc_gl true) 5 true 0 2 ex_buf 5 in
  map (fun l => (map fst (l_text l), l_x l, l_lastcol l)) lines = [([97; 98; 94]%N, 2, 5); ([65; 99]%N, 0, 2); ([26085; 26412; 100]%N, 0, 5); ([], 0, 0)] /\ (v, c) = (2, 0).
Proof. vm_compute. split; reflexivity. Qed.
Example ex_shown : let '(lines, v, c) := parse (wc_gl true) 5 true 0 2 ex_buf 5 in
  let off := bottom_offset 0 2 10 (length lines) in scroll_top 5 0 (length lines) v c off (fun i => l_x (nth i lines (fresh 0 0))) 0 = 1.
Proof. vm_compute. reflexivity. Qed.
Definition ex_click : text := plain [97; 98; 26085; 26412; 100; 101]%N.
Example ex_click_ok : unicode ex_click /\ plain_text ex_click.
Proof. split; [exact (unicode_b ex_click eq_refl)|]. apply Forall_forall; intros c Hc; cbn in Hc; repeat (destruct Hc as [<-|Hc]; [cbn; lia|]); contradiction. Qed.
(** the second wide character does not fit in the first row of seven columns; its right half in the second row is clicked *)
Example ex_click_at : map (fun x => click (wc_gl true) 7 2 ex_click x 1) [0; 1; 2; 3; 4] = [5; 5; 8; 9; 10] /\ map (fun x => click (wc_gl true) 7 2 ex_click x 0) [2; 3; 4; 5; 6] = [0; 1; 2; 2; 5].
Proof. vm_compute. split; reflexivity. Qed.
Definition ex_row : line := mkL (plain [97; 98; 99; 100; 101; 102; 103; 104]%N) 0 8 0 8 0 0 false true.
Example ex_marks : map fst (l_text (top_mark (wc_gl true) ex_row)) = [60; 98; 99; 100; 101; 102; 103; 104]%N /\ map fst (l_text (bottom_mark 8 (fun _ => 1) ex_row)) = [97; 98; 99; 100; 101; 102; 62]%N.
Proof. vm_compute. split; reflexivity. Qed.
Definition ex_b1 : text := plain [100; 101; 108; 32; 97; 98]%N.
Definition ex_b2 : text := plain [100; 32; 97; 98]%N.
Definition ex_l1 : line := Eval vm_compute in nth 0 (fst (fst (parse (wc_gl true) 20 true 0 2 ex_b1 6))) (fresh 0 0).
Definition ex_l2 : line := Eval vm_compute in nth 0 (fst (fst (parse (wc_gl true) 20 true 0 2 ex_b2 1))) (fresh 0 0).
Lemma plain_no_join ce t : plain_text t -> Forall (fun c : tch => (fst c < 127)%N) t -> no_join ce t.
Proof. intros H H' a c f d b E Hc. exfalso. unfold plain_text in H. rewrite Forall_forall in H, H'. assert (Hin : In (c, f) t) by (rewrite E; apply in_or_app; right; left; reflexivity). specialize (H _ Hin). specialize (H' _ Hin). cbn [fst] in *. lia. Qed.
Lemma ascii_b t : forallb (fun c : tch => (32 <=? fst c)%N && (fst c <? 127)%N) t = true -> plain_text t /\ Forall (fun c : tch => (fst c < 127)%N) t.
Proof. intro H. rewrite forallb_forall in H. split; apply Forall_forall; intros c Hc; specialize (H c Hc); lia. Qed.
Example edit_ex : on_terminal (wc_gl true) 20 (update_line (wc_gl true) 20 (fun _ => (0%N, 0%N)) false false (Some ex_l1) ex_l2) (shown (wc_gl true) 20 prompt2 (l_text ex_l1)) = shown (wc_gl true) 20 prompt2 (l_text ex_l2).
Proof.
  destruct (ascii_b ex_b1 eq_refl) as [A1 B1]. destruct (ascii_b ex_b2 eq_refl) as [A2 B2].
  apply (edit_redraws true 20 (fun _ => (0%N, 0%N)) false true 0 0 2 2 ex_b1 ex_b2 6 1 0 (Some ex_l1) ex_l2 prompt2); [exact (unicode_b ex_b1 eq_refl)|apply plain_no_c1; exact A1|apply plain_no_join; assumption|exact (unicode_b ex_b2 eq_refl)|apply plain_no_c1; exact A2|apply plain_no_join; assumption| |lia|lia|lia|cbn; lia|cbn; lia|vm_compute; reflexivity|vm_compute; reflexivity|discriminate|exact prompt2_whole| |].
  - unfold one_face. assert (E : wc_gl true ex_b2 = [(plain [100%N], 1%Z); (plain [32%N], 1%Z); (plain [97%N], 1%Z); (plain [98%N], 1%Z)]) by (vm_compute; reflexivity). rewrite E. repeat (apply Forall_cons; [cbn [fst plain map]; apply Forall_cons; [reflexivity|apply Forall_nil]|]). apply Forall_nil.
  - split; [split; vm_compute; reflexivity|]. left. exists []. split; vm_compute; reflexivity.
  - right. vm_compute. auto 10.
Qed.
