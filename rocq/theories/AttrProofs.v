(** Proofs for AttrModel. *)
From Verif Require Import Base AttrModel AttrSpec.
Open Scope N_scope.

Lemma ones_bit w n : N.testbit (N.ones w) n = (n <? w).
Proof. destruct (n <? w) eqn:E; [apply N.ones_spec_low; lia|apply N.ones_spec_high; lia]. Qed.
Lemma field_bit lo w s n : N.testbit (field lo w s) n = N.testbit s (n + lo) && (n <? w).
Proof. unfold field. rewrite N.land_spec, N.shiftr_spec', ones_bit. reflexivity. Qed.
Lemma shl_bit a lo n : N.testbit (N.shiftl a lo) n = (lo <=? n) && N.testbit a (n - lo).
Proof. destruct (lo <=? n) eqn:E; [rewrite N.shiftl_spec_high' by lia; reflexivity|rewrite N.shiftl_spec_low by lia; reflexivity]. Qed.
Lemma put_bit lo w v s n : N.testbit (put lo w v s) n = if (lo <=? n) && (n <? lo + w) then N.testbit v (n - lo) else N.testbit s n.
Proof.
  unfold put. rewrite N.lor_spec, N.ldiff_spec, !shl_bit, N.land_spec, !ones_bit.
  destruct (lo <=? n) eqn:E1; cbn [andb negb].
  - replace (n - lo <? w) with (n <? lo + w) by lia. destruct (n <? lo + w); cbn [andb negb orb]; [rewrite andb_false_r, andb_true_r; reflexivity|rewrite andb_true_r, andb_false_r, orb_false_r; reflexivity].
  - rewrite andb_true_r, orb_false_r. reflexivity.
Qed.

Lemma field_put_same lo w v s : field lo w (put lo w v s) = N.land v (N.ones w).
Proof.
  apply N.bits_inj. intro n. rewrite field_bit, put_bit, N.land_spec, ones_bit. destruct (n <? w) eqn:E; [|rewrite !andb_false_r; reflexivity].
  replace ((lo <=? n + lo) && (n + lo <? lo + w)) with true by lia. replace (n + lo - lo) with n by lia. reflexivity.
Qed.
Lemma field_put_other lo w lo' w' v s : (lo + w <=? lo') || (lo' + w' <=? lo) = true -> field lo w (put lo' w' v s) = field lo w s.
Proof.
  intro H. apply N.bits_inj. intro n. rewrite !field_bit, put_bit. destruct (n <? w) eqn:E; [|rewrite !andb_false_r; reflexivity].
  replace ((lo' <=? n + lo) && (n + lo <? lo' + w')) with false by lia. reflexivity.
Qed.
(** a one bit field inside a wider one *)
Lemma field_put_in lo w lo' w' v s : lo' <= lo -> lo + w <= lo' + w' -> field lo w (put lo' w' v s) = field (lo - lo') w v.
Proof.
  intros H1 H2. apply N.bits_inj. intro n. rewrite !field_bit, put_bit. destruct (n <? w) eqn:E; [|rewrite !andb_false_r; reflexivity].
  replace ((lo' <=? n + lo) && (n + lo <? lo' + w')) with true by lia. replace (n + lo - lo') with (n + (lo - lo')) by lia. reflexivity.
Qed.
Lemma field_field lo w lo' w' s : lo + w <= w' -> field lo w (field lo' w' s) = field (lo + lo') w s.
Proof.
  intro H. apply N.bits_inj. intro n. rewrite !field_bit. destruct (n <? w) eqn:E; [|rewrite !andb_false_r; reflexivity].
  replace (n + lo <? w') with true by lia. rewrite !andb_true_r. f_equal. lia.
Qed.
Lemma field_land lo w a b : field lo w (N.land a b) = N.land (field lo w a) (field lo w b).
Proof. apply N.bits_inj. intro n. rewrite N.land_spec, !field_bit, N.land_spec. destruct (N.testbit a (n + lo)), (N.testbit b (n + lo)), (n <? w); reflexivity. Qed.
Lemma field_lor lo w a b : field lo w (N.lor a b) = N.lor (field lo w a) (field lo w b).
Proof. apply N.bits_inj. intro n. rewrite N.lor_spec, !field_bit, N.lor_spec. destruct (N.testbit a (n + lo)), (N.testbit b (n + lo)), (n <? w); reflexivity. Qed.
Lemma field_0 lo w : field lo w 0 = 0.
Proof. unfold field. rewrite N.shiftr_0_l. reflexivity. Qed.
Lemma field_arith lo w s : field lo w s = s / 2 ^ lo mod 2 ^ w.
Proof. unfold field. rewrite N.land_ones, N.shiftr_div_pow2. reflexivity. Qed.
Lemma field_lt lo w s : field lo w s < 2 ^ w.
Proof. rewrite field_arith. apply N.mod_lt. apply N.pow_nonzero. discriminate. Qed.
Lemma field1 lo s : field lo 1 s = 0 \/ field lo 1 s = 1.
Proof. pose proof (field_lt lo 1 s) as H. change (2 ^ 1) with 2 in H. lia. Qed.
Lemma field_small w v : v < 2 ^ w -> N.land v (N.ones w) = v.
Proof. intro H. rewrite N.land_ones. apply N.mod_small. exact H. Qed.
(** selecting between two words by a mask *)
Lemma field_select lo w a b m : lo + w <= 64 ->
  field lo w (N.lor (N.land a (lnot64 m)) (N.land b m)) = N.lor (N.ldiff (field lo w a) (field lo w m)) (N.land (field lo w b) (field lo w m)).
Proof.
  intro H. apply N.bits_inj. intro n. unfold lnot64. rewrite N.lor_spec, N.ldiff_spec, N.land_spec, !field_bit, N.lor_spec, !N.land_spec, N.lxor_spec, ones_bit.
  destruct (n <? w) eqn:E; [|rewrite !andb_false_r; reflexivity]. replace (n + lo <? 64) with true by lia.
  destruct (N.testbit a (n + lo)), (N.testbit b (n + lo)), (N.testbit m (n + lo)); reflexivity.
Qed.

Ltac fld := repeat (rewrite field_put_same || (rewrite field_put_other by reflexivity) || (rewrite field_put_in by lia) || rewrite field_0); cbn [N.sub Pos.sub Pos.sub_mask Pos.double_mask Pos.succ_double_mask Pos.pred_double].

(** views *)
Lemma view_ext a b : f_fg a = f_fg b -> f_bg a = f_bg b -> f_bold a = f_bold b -> f_underline a = f_underline b -> f_reverse a = f_reverse b ->
  m_fg a = m_fg b -> m_bg a = m_bg b -> m_bold a = m_bold b -> m_underline a = m_underline b -> m_reverse a = m_reverse b -> view a = view b.
Proof. intros. unfold view, get_fg, get_bg, get_bold, get_underline, get_reverse. congruence. Qed.

Ltac vw := unfold view, get_fg, get_bg, get_bold, get_underline, get_reverse, m_fg, m_bg, m_bold, m_underline, m_reverse, f_fg, f_bg, f_bold, f_underline, f_reverse; cbn [fst v_fg v_bg v_bold v_ul v_rev]; fld.

Lemma odd_b2n b : N.odd (N.land (N.b2n b) (N.ones 1)) = b.
Proof. destruct b; reflexivity. Qed.
Lemma view_set_bold b s : view (set_bold b s) = gapply (view s) (GBold b).
Proof. unfold set_bold, gapply. vw. rewrite odd_b2n. reflexivity. Qed.
Lemma view_set_underline b s : view (set_underline b s) = gapply (view s) (GUl b).
Proof. unfold set_underline, gapply. vw. rewrite odd_b2n. reflexivity. Qed.
Lemma view_set_reverse b s : view (set_reverse b s) = gapply (view s) (GRev b).
Proof. unfold set_reverse, gapply. vw. rewrite odd_b2n. reflexivity. Qed.
Lemma view_reset_fg s : view (reset_fg s) = gapply (view s) (GFg PDef).
Proof. unfold reset_fg, gapply. vw. reflexivity. Qed.
Lemma view_reset_bg s : view (reset_bg s) = gapply (view s) (GBg PDef).
Proof. unfold reset_bg, gapply. vw. reflexivity. Qed.
Lemma view_set_fg i s : i < 256 -> i <> 231 -> view (set_fg i s) = mkV (true, i) (v_bg (view s)) (v_bold (view s)) (v_ul (view s)) (v_rev (view s)).
Proof.
  intros H Hn. unfold set_fg. cbv zeta. rewrite N.mod_small by exact H. replace (i =? default_code) with false by (unfold default_code; lia).
  vw. rewrite (field_small 16 i) by (change (2 ^ 16) with 65536; lia). reflexivity.
Qed.
Lemma view_set_bg i s : i < 256 -> i <> 231 -> view (set_bg i s) = mkV (v_fg (view s)) (true, i) (v_bold (view s)) (v_ul (view s)) (v_rev (view s)).
Proof.
  intros H Hn. unfold set_bg. cbv zeta. rewrite N.mod_small by exact H. replace (i =? default_code) with false by (unfold default_code; lia).
  vw. rewrite (field_small 16 i) by (change (2 ^ 16) with 65536; lia). reflexivity.
Qed.
Lemma fg_parts s : field 0 16 s = field 0 5 s + 32 * field 5 5 s + 1024 * field 10 5 s + 32768 * field 15 1 s.
Proof.
  rewrite !field_arith. change (2 ^ 0) with 1. change (2 ^ 5) with 32. change (2 ^ 10) with 1024. change (2 ^ 15) with 32768. change (2 ^ 16) with 65536. change (2 ^ 1) with 2.
  rewrite N.div_1_r. replace (s / 1024) with (s / 32 / 32) by (rewrite N.div_div by lia; reflexivity). replace (s / 32768) with (s / 32 / 32 / 32) by (rewrite !N.div_div by lia; reflexivity). lia.
Qed.
Lemma bg_parts s : field 16 16 s = field 16 5 s + 32 * field 21 5 s + 1024 * field 26 5 s + 32768 * field 31 1 s.
Proof.
  pose proof (fg_parts (N.shiftr s 16)) as H. unfold field in *. rewrite !N.shiftr_shiftr in H. exact H.
Qed.
Lemma chan r : r < 256 -> N.land (N.shiftr (r mod 256) 3) (N.ones 5) = r / 8.
Proof. intro H. rewrite N.mod_small by exact H. rewrite N.shiftr_div_pow2, N.land_ones. change (2 ^ 3) with 8. change (2 ^ 5) with 32. lia. Qed.
Lemma view_set_fg_rgb r g b s : r < 256 -> g < 256 -> b < 256 ->
  view (set_fg_rgb r g b s) = mkV (true, cval (CRgb r g b)) (v_bg (view s)) (v_bold (view s)) (v_ul (view s)) (v_rev (view s)).
Proof.
  intros Hr Hg Hb. unfold set_fg_rgb. vw. rewrite fg_parts. fld. rewrite !chan by assumption. reflexivity.
Qed.
Lemma view_set_bg_rgb r g b s : r < 256 -> g < 256 -> b < 256 ->
  view (set_bg_rgb r g b s) = mkV (v_fg (view s)) (true, cval (CRgb r g b)) (v_bold (view s)) (v_ul (view s)) (v_rev (view s)).
Proof.
  intros Hr Hg Hb. unfold set_bg_rgb. vw. rewrite bg_parts. fld. rewrite !chan by assumption. reflexivity.
Qed.
Lemma view_defaults : view defaults = plain.
Proof. reflexivity. Qed.
Lemma view_empty : view empty = unset.
Proof. reflexivity. Qed.

Lemma sel_ones w a b : a < 2 ^ w -> b < 2 ^ w -> N.lor (N.ldiff a (N.ones w)) (N.land b (N.ones w)) = b.
Proof.
  intros Ha Hb. rewrite field_small by exact Hb. replace (N.ldiff a (N.ones w)) with 0; [reflexivity|]. symmetry. apply N.bits_inj. intro n. rewrite N.ldiff_spec, N.bits_0, ones_bit.
  destruct (n <? w) eqn:E; [apply andb_false_r|]. destruct (N.eq_dec a 0) as [->|H0]; [rewrite N.bits_0; reflexivity|]. rewrite N.bits_above_log2; [reflexivity|].
  assert (N.log2 a < w) by (apply N.log2_lt_pow2; lia). lia.
Qed.

Lemma sel_bit a b m : a < 2 -> b < 2 -> m < 2 -> N.lor (N.ldiff a m) (N.land b m) = if m =? 0 then a else b.
Proof. intros Ha Hb Hm. assert (a = 0 \/ a = 1) as [->| ->] by lia; assert (b = 0 \/ b = 1) as [->| ->] by lia; assert (m = 0 \/ m = 1) as [->| ->] by lia; reflexivity. Qed.
Lemma sel_word a b (f : N) : a < 2 ^ 16 -> b < 2 ^ 16 ->
  N.lor (N.ldiff a (N.land (if f =? 0 then 0 else N.ones 16) (N.ones 16))) (N.land b (N.land (if f =? 0 then 0 else N.ones 16) (N.ones 16))) = if f =? 0 then a else b.
Proof.
  intros Ha Hb. destruct (f =? 0).
  - rewrite N.land_0_l, N.ldiff_0_r, N.land_0_r, N.lor_0_r. reflexivity.
  - rewrite N.land_diag. apply sel_ones; assumption.
Qed.
Lemma land_1 x : x < 2 -> N.land x (N.ones 1) = x.
Proof. intro H. apply field_small. exact H. Qed.

Lemma merge_fields a b :
  m_fg (merge a b) = (if f_fg b =? 0 then m_fg a else m_fg b) /\ m_bg (merge a b) = (if f_bg b =? 0 then m_bg a else m_bg b) /\
  m_bold (merge a b) = (if f_bold b =? 0 then m_bold a else m_bold b) /\ m_underline (merge a b) = (if f_underline b =? 0 then m_underline a else m_underline b) /\
  m_reverse (merge a b) = (if f_reverse b =? 0 then m_reverse a else m_reverse b) /\
  f_all (merge a b) = N.lor (f_all b) (f_all a).
Proof.
  unfold merge. cbv zeta. unfold m_fg, m_bg, m_bold, m_underline, m_reverse, f_fg, f_bg, f_bold, f_underline, f_reverse, f_all.
  assert (L1 : forall lo s, field lo 1 s < 2) by (intros lo s; exact (field_lt lo 1 s)).
  assert (L16 : forall lo s, field lo 16 s < 2 ^ 16) by (intros lo s; exact (field_lt lo 16 s)).
  split; [fld; rewrite field_select by lia; fld; apply sel_word; apply L16|].
  split; [fld; rewrite field_select by lia; fld; apply sel_word; apply L16|].
  split; [fld; rewrite field_select by lia; fld; rewrite land_1 by apply L1; apply sel_bit; apply L1|].
  split; [fld; rewrite field_select by lia; fld; rewrite land_1 by apply L1; apply sel_bit; apply L1|].
  split; [fld; rewrite field_select by lia; fld; rewrite land_1 by apply L1; apply sel_bit; apply L1|].
  fld. rewrite field_select by lia. fld. change (N.land (N.ones 8) (N.ones 8)) with (N.ones 8). rewrite sel_ones by (apply field_lt).
  apply field_small. change (2 ^ 8) with 256.
  assert (Hlor : forall x y, x < 2 ^ 8 -> y < 2 ^ 8 -> N.lor x y < 2 ^ 8).
  { intros x y Hx Hy. destruct (N.eq_dec (N.lor x y) 0) as [->|H0]; [reflexivity|]. apply N.log2_lt_pow2; [lia|]. rewrite N.log2_lor.
    destruct (N.eq_dec x 0) as [->|Hx0]; destruct (N.eq_dec y 0) as [->|Hy0]; cbn [N.log2]; try lia; repeat (apply N.max_lub_lt); try lia; apply N.log2_lt_pow2; lia. }
  apply Hlor; apply field_lt.
Qed.
Lemma flag_of_all k s : k < 8 -> field (48 + k) 1 s = field k 1 (f_all s).
Proof. intro H. unfold f_all. rewrite field_field by lia. f_equal. lia. Qed.
Lemma merge_flag k a b : k < 8 -> field (48 + k) 1 (merge a b) = N.lor (field (48 + k) 1 b) (field (48 + k) 1 a).
Proof.
  intro H. destruct (merge_fields a b) as (_ & _ & _ & _ & _ & E). rewrite !flag_of_all by exact H. rewrite E, field_lor. reflexivity.
Qed.
Lemma odd_lor x y : N.odd (N.lor x y) = N.odd y || N.odd x.
Proof. rewrite <- !N.bit0_odd, N.lor_spec, orb_comm. reflexivity. Qed.
Lemma odd_flag lo s : N.odd (field lo 1 s) = negb (field lo 1 s =? 0).
Proof. destruct (field1 lo s) as [->| ->]; reflexivity. Qed.

Lemma view_merge a b : view (merge a b) = over (view a) (view b).
Proof.
  destruct (merge_fields a b) as (E1 & E2 & E3 & E4 & E5 & _). unfold view, over, over1, get_fg, get_bg, get_bold, get_underline, get_reverse. cbn [fst snd v_fg v_bg v_bold v_ul v_rev].
  rewrite E1, E2, E3, E4, E5. unfold f_fg, f_bg, f_bold, f_underline, f_reverse.
  pose proof (merge_flag 0 a b ltac:(lia)) as F0. pose proof (merge_flag 1 a b ltac:(lia)) as F1. pose proof (merge_flag 2 a b ltac:(lia)) as F2. pose proof (merge_flag 3 a b ltac:(lia)) as F3. pose proof (merge_flag 4 a b ltac:(lia)) as F4.
  change (48 + 0) with 48 in F0. change (48 + 1) with 49 in F1. change (48 + 2) with 50 in F2. change (48 + 3) with 51 in F3. change (48 + 4) with 52 in F4.
  rewrite F0, F1, F2, F3, F4, !odd_lor. rewrite (odd_flag 48 b), (odd_flag 49 b), (odd_flag 50 b), (odd_flag 51 b), (odd_flag 52 b).
  destruct (field 48 1 b =? 0), (field 49 1 b =? 0), (field 50 1 b =? 0), (field 51 1 b =? 0), (field 52 1 b =? 0); reflexivity.
Qed.

Definition diff1 {A} (eq : A -> A -> bool) (x y : bool * A) : bool * A := (fst y && negb (eq (snd y) (snd x)), snd y).
Lemma land_flag k x y : k < 8 -> field k 1 (N.land x y) = N.land (field k 1 x) (field k 1 y).
Proof. intros _. apply field_land. Qed.
Lemma odd_eq lo a b : Bool.eqb (N.odd (field lo 1 a)) (N.odd (field lo 1 b)) = (field lo 1 a =? field lo 1 b).
Proof. destruct (field1 lo a) as [->| ->], (field1 lo b) as [->| ->]; reflexivity. Qed.
Lemma odd_land x y : N.odd (N.land x y) = N.odd x && N.odd y.
Proof. rewrite <- !N.bit0_odd, N.land_spec. reflexivity. Qed.

Lemma view_diff junk a b : view (diff junk a b) =
  mkV (diff1 N.eqb (v_fg (view a)) (v_fg (view b))) (diff1 N.eqb (v_bg (view a)) (v_bg (view b))) (diff1 Bool.eqb (v_bold (view a)) (v_bold (view b)))
      (diff1 Bool.eqb (v_ul (view a)) (v_ul (view b))) (diff1 Bool.eqb (v_rev (view a)) (v_rev (view b))).
Proof.
  unfold diff. cbv zeta. unfold view, diff1, get_fg, get_bg, get_bold, get_underline, get_reverse. cbn [fst snd v_fg v_bg v_bold v_ul v_rev].
  unfold m_fg, m_bg, m_bold, m_underline, m_reverse, f_fg, f_bg, f_bold, f_underline, f_reverse. rewrite !odd_eq.
  set (ch := put 4 1 _ _).
  assert (Hf : forall k, k < 5 -> N.odd (field (48 + k) 1 (put 48 8 (N.land (f_all b) ch) b)) = N.odd (field (48 + k) 1 b) && N.odd (field k 1 ch)).
  { intros k Hk. rewrite field_put_in by lia. replace (48 + k - 48) with k by lia. rewrite field_land, odd_land. unfold f_all. rewrite field_field by lia. do 3 f_equal. lia. }
  pose proof (Hf 0 ltac:(lia)) as F0. pose proof (Hf 1 ltac:(lia)) as F1. pose proof (Hf 2 ltac:(lia)) as F2. pose proof (Hf 3 ltac:(lia)) as F3. pose proof (Hf 4 ltac:(lia)) as F4.
  change (48 + 0) with 48 in F0. change (48 + 1) with 49 in F1. change (48 + 2) with 50 in F2. change (48 + 3) with 51 in F3. change (48 + 4) with 52 in F4.
  rewrite F0, F1, F2, F3, F4. clear Hf F0 F1 F2 F3 F4. subst ch.
  rewrite !(fun lo w H => field_put_other lo w 48 8 _ b H) by reflexivity. fld. rewrite !odd_b2n. reflexivity.
Qed.
