(** C43, C59, C60: text attributes, SGR and CSI parameters, the printer. *)
From Verif Require Import Base AttrModel AttrSpec AttrProofs SgrProofs PrinterProofs.
Open Scope N_scope.

(** ** C43 *)
Theorem c43_merge a b : view (merge a b) = over (view a) (view b).
Proof. apply view_merge. Qed.
Print Assumptions c43_merge.
Example c43_merge_ex : visible (view (merge (set_bold true (set_fg 3 empty)) (set_fg_rgb 255 128 0 empty))) = (Some (cval (CRgb 255 128 0)), None, Some true, None, None).
Proof. vm_compute. reflexivity. Qed.

Lemma over1_assoc {A} (x y z : bool * A) : over1 (over1 x y) z = over1 x (over1 y z).
Proof. destruct x as [[] ?], y as [[] ?], z as [[] ?]; reflexivity. Qed.
Theorem c43_assoc a b c : view (merge (merge a b) c) = view (merge a (merge b c)).
Proof. rewrite !view_merge. unfold over. cbn [v_fg v_bg v_bold v_ul v_rev]. rewrite !over1_assoc. reflexivity. Qed.
Print Assumptions c43_assoc.
Example c43_assoc_ex : view (merge (merge (set_fg 3 empty) (set_bold true empty)) (reset_fg empty)) = mkV (true, 231) (false, 0) (true, true) (false, false) (false, false).
Proof. vm_compute. reflexivity. Qed.

Theorem c43_right_identity a : view (merge a empty) = view a.
Proof. rewrite view_merge, view_empty. destruct (view a) as [[[] ?] [[] ?] [[] ?] [[] ?] [[] ?]]; reflexivity. Qed.
Print Assumptions c43_right_identity.
Theorem c43_left_identity a : visible (view (merge empty a)) = visible (view a).
Proof. rewrite view_merge, view_empty. destruct (view a) as [[[] ?] [[] ?] [[] ?] [[] ?] [[] ?]]; reflexivity. Qed.
Print Assumptions c43_left_identity.
Example c43_identity_ex : visible (view (merge empty (set_underline true (set_bg 7 empty)))) = (None, Some 7, None, Some true, None).
Proof. vm_compute. reflexivity. Qed.

(** The difference: the attributes the second sets to another value than the first holds; whatever the uninitialised
    bits are. *)
Definition change {A} (eq : A -> A -> bool) (x y : bool * A) : option A := if fst y && negb (eq (snd y) (snd x)) then Some (snd y) else None.
Theorem c43_diff j a b : let x := view a in let y := view b in
  visible (view (diff j a b)) = (change N.eqb (v_fg x) (v_fg y), change N.eqb (v_bg x) (v_bg y), change Bool.eqb (v_bold x) (v_bold y), change Bool.eqb (v_ul x) (v_ul y), change Bool.eqb (v_rev x) (v_rev y)).
Proof. cbv zeta. rewrite view_diff. reflexivity. Qed.
Print Assumptions c43_diff.
Example c43_diff_ex : visible (view (diff 12345 defaults (merge defaults (set_fg 9 empty)))) = (Some 9, None, None, None, None).
Proof. vm_compute. reflexivity. Qed.

Theorem c43_diff_merge j a b : full (view a) -> full (view b) -> view (merge a (diff j a b)) = view b.
Proof.
  intros (A1 & A2 & A3 & A4 & A5) (B1 & B2 & B3 & B4 & B5). rewrite view_merge, view_diff.
  destruct (view a) as [[? af] [? ab] [? ao] [? au] [? ar]], (view b) as [[? bf] [? bb] [? bo] [? bu] [? br]]. cbn in *. subst. unfold over, over1, diff1. cbn [v_fg v_bg v_bold v_ul v_rev fst snd andb orb].
  destruct (bf =? af) eqn:Ef; destruct (bb =? ab) eqn:Eb; cbn [negb]; try (apply N.eqb_eq in Ef; subst bf); try (apply N.eqb_eq in Eb; subst bb); destruct ao, bo, au, bu, ar, br; reflexivity.
Qed.
Print Assumptions c43_diff_merge.
Example c43_diff_merge_ex : let a := set_bold true defaults in let b := set_fg_rgb 1 2 3 (set_reverse true defaults) in full (view a) /\ full (view b) /\ view a <> view b.
Proof. cbv zeta. split; [vm_compute; auto 10|]. split; [vm_compute; auto 10|vm_compute; discriminate]. Qed.
(** For any two attribute sets: *)
Definition c43_diff_merge_any : Prop := forall j a b, visible (view (merge a (diff j a b))) = visible (view (merge a b)).
(** a color that is black, laid over no color, is not a difference *)
Theorem c43_diff_merge_any_refuted : ~ c43_diff_merge_any.
Proof. intro H. specialize (H 0 empty (set_fg 0 empty)). vm_compute in H. discriminate. Qed.
Print Assumptions c43_diff_merge_any_refuted.

(** Equality: no attribute set in both differs. *)
Definition agree1 {A} (x y : bool * A) : Prop := fst x = true -> fst y = true -> snd x = snd y.
Definition agree (x y : av) : Prop := agree1 (v_fg x) (v_fg y) /\ agree1 (v_bg x) (v_bg y) /\ agree1 (v_bold x) (v_bold y) /\ agree1 (v_ul x) (v_ul y) /\ agree1 (v_rev x) (v_rev y).
Lemma eq_flag lo a b (v : N -> N) : ((if N.land (field lo 1 a) (field lo 1 b) =? 0 then true else v a =? v b) = true) <-> (N.odd (field lo 1 a) = true -> N.odd (field lo 1 b) = true -> v a = v b).
Proof. destruct (field1 lo a) as [->| ->], (field1 lo b) as [->| ->]; cbn; try (split; [congruence|reflexivity]). rewrite N.eqb_eq. tauto. Qed.
Lemma odd_inj lo a b : N.odd (field lo 1 a) = N.odd (field lo 1 b) <-> field lo 1 a = field lo 1 b.
Proof. destruct (field1 lo a) as [->| ->], (field1 lo b) as [->| ->]; cbn; split; congruence. Qed.
Theorem c43_equal a b : eqb a b = true <-> agree (view a) (view b).
Proof.
  unfold eqb, agree, agree1, view, get_fg, get_bg, get_bold, get_underline, get_reverse. cbv zeta. cbn [v_fg v_bg v_bold v_ul v_rev fst snd].
  unfold m_bold, m_underline, m_reverse, f_fg, f_bg, f_bold, f_underline, f_reverse. rewrite !andb_true_iff, !odd_inj.
  rewrite (eq_flag 48 a b m_fg), (eq_flag 49 a b m_bg), (eq_flag 50 a b (field 32 1)), (eq_flag 51 a b (field 33 1)), (eq_flag 52 a b (field 34 1)). tauto.
Qed.
Print Assumptions c43_equal.
Example c43_equal_ex : eqb (set_fg 3 (set_bold true empty)) (set_bold true (set_bg 4 empty)) = true /\ eqb (set_fg 3 empty) (set_fg 4 empty) = false.
Proof. vm_compute. auto. Qed.
Definition c43_equal_transitive : Prop := forall a b c, eqb a b = true -> eqb b c = true -> eqb a c = true.
Theorem c43_equal_transitive_refuted : ~ c43_equal_transitive.
Proof. intro H. specialize (H (set_fg 1 empty) empty (set_fg 2 empty) eq_refl eq_refl). vm_compute in H. discriminate. Qed.
Print Assumptions c43_equal_transitive_refuted.

(** An explicit color is never taken for the default color. *)
Definition fg_is_default (s : N) : bool := snd (get_fg s).
Definition bg_is_default (s : N) : bool := snd (get_bg s).
Theorem c43_default r g b v s : v < 256 -> r < 256 -> g < 256 -> b < 256 ->
  fg_is_default (reset_fg s) = true /\ fg_is_default (set_fg v s) = false /\ fg_is_default (set_fg_rgb r g b s) = false /\
  bg_is_default (reset_bg s) = true /\ bg_is_default (set_bg v s) = false /\ bg_is_default (set_bg_rgb r g b s) = false.
Proof.
  intros Hv Hr Hg Hb. assert (P : forall s, fg_is_default s = (snd (v_fg (view s)) =? 231) /\ bg_is_default s = (snd (v_bg (view s)) =? 231)) by (intro; split; reflexivity).
  assert (X : forall c, exists i, (forall s, set_fg c s = set_fg i s) /\ (forall s, set_bg c s = set_bg i s) /\ i < 256 /\ i <> 231).
  { intro c. destruct (N.eq_dec (c mod 256) 231) as [E|E].
    - exists 15. unfold set_fg, set_bg. cbv zeta. rewrite E. split; [reflexivity|]. split; [reflexivity|lia].
    - exists (c mod 256). unfold set_fg, set_bg. cbv zeta. rewrite N.mod_mod by lia. split; [reflexivity|]. split; [reflexivity|]. split; [apply N.mod_lt; lia|exact E]. }
  destruct (X v) as (i & E1 & E2 & Hi & Hn). rewrite E1, E2.
  rewrite !(proj1 (P _)), !(proj2 (P _)), view_reset_fg, view_reset_bg, view_set_fg, view_set_bg, view_set_fg_rgb, view_set_bg_rgb by assumption. cbn [gapply v_fg v_bg pmean cval snd].
  split; [reflexivity|]. split; [lia|]. split; [lia|]. split; [reflexivity|]. split; lia.
Qed.
Print Assumptions c43_default.
Example c43_default_ex : v_fg (view (set_fg 231 empty)) = (true, 15) /\ fg_is_default (set_fg 231 empty) = false.
Proof. vm_compute. auto. Qed.

(** 24 bit colors keep the top five bits of each part, and what is read back stands for the same color. *)
Lemma chan5 x : x < 32 -> N.lor (N.shiftl x 3) (N.land x 7) mod 256 / 8 = x /\ N.lor (N.shiftl x 3) (N.land x 7) mod 256 < 256.
Proof.
  intro H. assert (E : N.lor (N.shiftl x 3) (N.land x 7) = 8 * x + x mod 8).
  { change 7 with (N.ones 3). rewrite N.land_ones, N.shiftl_mul_pow2. change (2 ^ 3) with 8. rewrite <- N.lxor_lor.
    - rewrite <- N.add_nocarry_lxor; [lia|]. apply N.bits_inj_0. intro n. rewrite N.land_spec. change 8 with (2 ^ 3) at 1. destruct (N.lt_ge_cases n 3); [rewrite N.mul_pow2_bits_low by exact H0; reflexivity|].
      replace (x mod 8) with (x mod 2 ^ 3) by reflexivity. rewrite N.mod_pow2_bits_high by exact H0. apply andb_false_r.
    - apply N.bits_inj_0. intro n. rewrite N.land_spec. change 8 with (2 ^ 3) at 1. destruct (N.lt_ge_cases n 3); [rewrite N.mul_pow2_bits_low by exact H0; reflexivity|].
      replace (x mod 8) with (x mod 2 ^ 3) by reflexivity. rewrite N.mod_pow2_bits_high by exact H0. apply andb_false_r. }
  rewrite E. split; lia.
Qed.
Theorem c43_rgb r g b s : r < 256 -> g < 256 -> b < 256 -> exists r' g' b', as_888 (m_fg (set_fg_rgb r g b s)) = (r', g', b') /\
  r' / 8 = r / 8 /\ g' / 8 = g / 8 /\ b' / 8 = b / 8 /\ r' < 256 /\ g' < 256 /\ b' < 256 /\ view (set_fg_rgb r' g' b' s) = view (set_fg_rgb r g b s).
Proof.
  intros Hr Hg Hb. unfold as_888. cbv zeta. eexists _, _, _. split; [reflexivity|].
  assert (E : m_fg (set_fg_rgb r g b s) = cval (CRgb r g b)) by (change (m_fg (set_fg_rgb r g b s)) with (snd (v_fg (view (set_fg_rgb r g b s)))); rewrite view_set_fg_rgb by assumption; reflexivity).
  rewrite E. cbn [cval]. set (v := r / 8 + _ + _ + _).
  assert (F : field 0 5 v = r / 8 /\ field 5 5 v = g / 8 /\ field 10 5 v = b / 8).
  { rewrite !field_arith. change (2 ^ 0) with 1. change (2 ^ 5) with 32. change (2 ^ 10) with 1024. unfold v. split; [lia|]. split; lia. }
  destruct F as (-> & -> & ->). destruct (chan5 (r / 8) ltac:(lia)) as [C1 D1]. destruct (chan5 (g / 8) ltac:(lia)) as [C2 D2]. destruct (chan5 (b / 8) ltac:(lia)) as [C3 D3].
  do 3 (split; [assumption|]). do 3 (split; [assumption|]). rewrite !view_set_fg_rgb by assumption. cbn [cval]. rewrite C1, C2, C3. reflexivity.
Qed.
Print Assumptions c43_rgb.
Example c43_rgb_ex : as_888 (m_fg (set_fg_rgb 255 128 0 empty)) = (255, 128, 0) /\ as_888 (m_fg (set_fg_rgb 200 100 50 empty)) = (201, 100, 54).
Proof. vm_compute. auto. Qed.

(** ** C59 *)
(** Any parameters at all: no parameter that is not there is read, and it ends. *)
Theorem c59_safe ps : sgr ps <> None.
Proof. destruct (sgr_safe ps) as [a ->]. discriminate. Qed.
Print Assumptions c59_safe.
Example c59_safe_ex : sgr [38; 2; 1] = Some empty /\ sgr [48; 5] = Some empty.
Proof. vm_compute. auto. Qed.

Theorem c59_sgr gs : Forall gok gs -> gs <> [] -> exists a, sgr (flat_map genc gs) = Some a /\ view a = fold_left gapply gs unset.
Proof. apply sgr_correct. Qed.
Print Assumptions c59_sgr.
Example c59_sgr_ex : let gs := [GReset; GBold true; GFg (PX 208); GBg (PRgb 10 20 30); GOther 53; GUl true] in
  Forall gok gs /\ flat_map genc gs = [0; 1; 38; 5; 208; 48; 2; 10; 20; 30; 53; 4] /\ fold_left gapply gs unset = mkV (true, cval (CRgb 255 135 0)) (true, cval (CRgb 10 20 30)) (true, true) (true, true) (true, false).
Proof. cbv zeta. split; [|split; vm_compute; reflexivity]. repeat constructor; cbn; unfold known, In; lia. Qed.
Theorem c59_reset : sgr [] = Some defaults /\ view defaults = plain.
Proof. split; [reflexivity|exact view_defaults]. Qed.
Print Assumptions c59_reset.

Theorem c59_csi esc priv pc ds is f max : 60 <= pc <= 63 -> ds <> [] -> Forall fits ds -> Forall (fun c => 32 <= c <= 47) is -> 64 <= f <= 126 ->
  decode_csi (csi_text esc priv pc ds is f) max = Some (priv, firstn max (pvals ds), last is 0, f).
Proof. apply csi_correct. Qed.
Print Assumptions c59_csi.
Example c59_csi_ex : Forall fits [[51; 56]; []; [49; 50; 51]] /\ csi_text true true 63 [[51; 56]; []; [49; 50; 51]] [32] 113 = [27; 91; 63; 51; 56; 59; 59; 49; 50; 51; 32; 113] /\
  pvals [[51; 56]; []; [49; 50; 51]] = [38; 0; 123].
Proof. split; [|split; reflexivity]. repeat constructor; unfold isdig; cbn; lia. Qed.

(** Numbers of any size *)
Definition c59_any_number : Prop := forall ds f max, ds <> [] -> Forall (Forall isdig) ds -> 64 <= f <= 126 -> decode_csi (csi_text true false 63 ds [] f) max <> None.
(** 2147483648 does not fit the int32 *)
Theorem c59_any_number_refuted : ~ c59_any_number.
Proof.
  intro H. apply (H [[50; 49; 52; 55; 52; 56; 51; 54; 52; 56]] 109 4%nat); [discriminate| |lia|vm_compute; reflexivity]. repeat constructor; unfold isdig; lia.
Qed.
Print Assumptions c59_any_number_refuted.
(** Sub-parameters: a colon separates like in ISO 8613-6 *)
Definition c59_colon : Prop := forall max, decode_csi [27; 91; 52; 58; 51; 109] max = decode_csi [27; 91; 52; 109] max.
(** 4:3 (curly underline) reads as 43: a background color *)
Theorem c59_colon_refuted : ~ c59_colon /\ decode_csi [27; 91; 52; 58; 51; 109] 16 = Some (false, [43], 0, 109).
Proof. split; [|vm_compute; reflexivity]. intro H. specialize (H 16%nat). vm_compute in H. discriminate. Qed.
Print Assumptions c59_colon_refuted.
(** More parameters than there is room for *)
Definition c59_all_params : Prop := forall ds, ds <> [] -> Forall fits ds -> exists i f, decode_csi (csi_text true false 63 ds [] 109) 32 = Some (false, pvals ds, i, f).
Theorem c59_all_params_refuted : ~ c59_all_params.
Proof.
  intro H. destruct (H (repeat [49] 33) ltac:(discriminate)) as (i & f & E); [apply Forall_forall; intros d Hd; apply repeat_spec in Hd; subst; split; [repeat constructor; unfold isdig; lia|vm_compute; reflexivity]|].
  vm_compute in E. discriminate.
Qed.
Print Assumptions c59_all_params_refuted.

(** ** C60 *)
Theorem c60_shown junk os : calms plain os -> screen plain (fst (p_run junk p_new os)) = asked plain os.
Proof. apply printer_correct. Qed.
Print Assumptions c60_shown.
Definition c60_ops := [OSet (set_fg 9 empty); OPrint [65]; OPrintAttr (set_bold true (set_bg 4 empty)) [66]; OPrint [67]; OSet (reset_fg empty); OPrint [68]].
Example c60_shown_ex : calms plain c60_ops /\ asked plain c60_ops = [([65], (9, 231, false, false)); ([66], (9, 4, true, false)); ([67], (9, 231, false, false)); ([68], (231, 231, false, false))].
Proof. split; [|vm_compute; reflexivity]. cbn; unfold calm, palette; vm_compute; intuition discriminate. Qed.

(** Without the restriction *)
Definition c60_any : Prop := forall junk os, screen plain (fst (p_run junk p_new os)) = asked plain os.
(** underline on, then bold on, colors default: the second SGR starts with 0, which takes the underline off *)
Theorem c60_any_refuted : ~ c60_any.
Proof. intro H. specialize (H 0 [OSet (set_underline true empty); OPrint [65]; OSet (set_bold true empty); OPrint [66]]). vm_compute in H. discriminate. Qed.
Print Assumptions c60_any_refuted.
(** 24 bit colors are written as palette colors *)
Definition c60_rgb : Prop := forall r g b, screen plain (fst (p_run 0 p_new [OSet (set_fg_rgb r g b empty); OPrint [65]])) = asked plain [OSet (set_fg_rgb r g b empty); OPrint [65]].
Theorem c60_rgb_refuted : ~ c60_rgb.
Proof. intro H. specialize (H 8 16 24). vm_compute in H. discriminate. Qed.
Print Assumptions c60_rgb_refuted.
(** reverse is not written *)
Definition c60_reverse : Prop := forall junk os p e, p_run junk p_new os = (e, p) -> snd (v_rev (view (p_next p))) = true -> exists ps, In (ESgr ps) e /\ In 7 ps.
Theorem c60_reverse_refuted : ~ c60_reverse.
Proof.
  intro H. destruct (p_run 0 p_new [OSet (set_fg 2 (set_reverse true empty)); OPrint [65]]) as [e p] eqn:E. specialize (H 0 _ p e E). vm_compute in E. injection E as <- <-. destruct (H eq_refl) as (ps & [I|[I|[]]] & J); [|discriminate].
  injection I as <-. cbn in J. destruct J as [J|[]]. discriminate.
Qed.
Print Assumptions c60_reverse_refuted.
(** print with SGR text: the attributes before it are back after it *)
Definition c60_raw : Prop := forall ps os, calms plain os -> let '(e, p) := p_run 0 p_new os in
  forall t c, screen plain (e ++ fst (p_print_raw 0 ps t p) ++ [EText c]) = screen plain (e ++ fst (p_print_raw 0 ps t p)) ++ [(c, shown (fold_left (fun w o => match o with OSet a => over w (view a) | _ => w end) os plain))].
(** the color is green; red is printed; it stays red *)
Theorem c60_raw_refuted : ~ c60_raw.
Proof.
  intro H. specialize (H [31] [OSet (set_fg 2 empty); OPrint [65]]). assert (Hc : calms plain [OSet (set_fg 2 empty); OPrint [65]]) by (cbn; unfold calm, palette; vm_compute; intuition discriminate).
  specialize (H Hc). destruct (p_run 0 p_new [OSet (set_fg 2 empty); OPrint [65]]) as [e p] eqn:E. vm_compute in E. injection E as <- <-. specialize (H [66] [67]). vm_compute in H. discriminate.
Qed.
Print Assumptions c60_raw_refuted.
