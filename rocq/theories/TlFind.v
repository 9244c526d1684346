(** Proofs about the popup lists: searching. *)
From Verif Require Import Base SmallModel TlModel TlSpec TlProofs TlSteps TlInput TlPaging.
Local Open Scope Z_scope.

(** The bytes of the keys that are text *)
Definition printable (keys : bytes) : bytes := filter (fun b => negb (Nat.ltb (nat_of_ascii b) 32)) keys.
(** The [j]th row from the [i]th of [n] in a direction, going round *)
Definition nth_from (i dir j n : Z) : Z := (i + dir * j) mod n.

Section Find.
Variable hit begins : bytes -> bytes -> bool.
Variable whole : bytes -> Prop.
Hypothesis hit_more : forall n x t, whole n -> n <> [] -> hit (n ++ x) t = true -> hit n t = true.
Variable c : cfg.
Notation data := (data hit c). Notation inv := (inv hit c). Notation base := (base hit c). Notation ready := (ready whole).

Definition row_matches (needle : bytes) (L : list row) (i : Z) : Prop := exists r, zth L i = Some r /\ matches hit needle (r_item r) = true.
(** Going from the [i]th row in a direction: the first that matches, or there is none. *)
Definition first_match (needle : bytes) (L : list row) (i dir from : Z) (found : option Z) : Prop :=
  let n := Z.of_nat (length L) in
  match found with
  | Some p => exists j, from <= j < from + n /\ p = nth_from i dir j n /\ row_matches needle L p /\ forall j', from <= j' < j -> ~ row_matches needle L (nth_from i dir j' n)
  | None => forall p, ~ row_matches needle L p
  end.

Lemma good_row s L p : data s L -> c_win c = false -> t_fstr s = [] -> (good hit begins c s p = true <-> row_matches (t_needle s) L p).
Proof.
  intros HL Hw Hf. unfold good. rewrite Hw. unfold row_matches.
  assert (E : item_at s p = option_map r_item (zth L p)).
  { destruct HL as ((_ & _ & T3 & _) & _). unfold item_at, original. rewrite Hf. cbn [is_nil]. rewrite T3. apply zth_map. }
  rewrite E. destruct (zth L p) as [r|]; cbn [option_map]; split.
  - intros H. exists r. auto.
  - intros (r' & Hr & H). injection Hr as <-. exact H.
  - discriminate.
  - intros (r' & Hr & _). discriminate.
Qed.
Lemma all_around i dir n p : 0 <= i < n -> dir = 1 \/ dir = -1 -> 0 <= p < n -> forall from, exists j, from <= j < from + n /\ nth_from i dir j n = p.
Proof.
  intros Hi Hd Hp from. unfold nth_from. set (q := (dir * (p - i) - from) mod n). assert (Hq : 0 <= q < n) by (apply Z.mod_pos_bound; lia). exists (from + q). split; [lia|].
  assert (E : exists k, from + q = dir * (p - i) + n * k).
  { exists (- ((dir * (p - i) - from) / n)). unfold q. pose proof (Z.div_mod (dir * (p - i) - from) n ltac:(lia)). lia. }
  destruct E as [k E]. rewrite E. assert (i + dir * (dir * (p - i) + n * k) = p + (dir * k) * n) as -> by (destruct Hd as [-> | ->]; ring).
  rewrite Z_mod_plus_full. apply Z.mod_small. lia.
Qed.
Lemma nth_from_shift i dir j n : 0 <= i < n -> dir = 1 \/ dir = -1 -> nth_from (advance i dir n) dir j n = nth_from i dir (j + 1) n.
Proof.
  intros Hi Hd. unfold nth_from. rewrite advance_mod by auto. rewrite Zplus_mod_idemp_l. f_equal. lia.
Qed.

Lemma do_find_spec busy dir (fb adv : bool) s d L : base s d -> valid c s -> table s L -> dir = 1 \/ dir = -1 -> t_nf s = false -> t_filt s = false -> c_win c = false ->
  let dr := if c_reverse c then 0 - dir else dir in
  let i := if fb then (if c_reverse c then t_count s - 1 else 0) else t_index s in
  exists s' b, do_find hit begins c busy dir fb adv s = Some (s', b) /\
    ((exists p t, first_match (t_needle s) L i dr (if adv then 1 else 0) (Some p) /\ s' = w_top t (w_index p s) /\ valid c s' /\ b = true) \/
     (first_match (t_needle s) L i dr 0 None /\ s' = w_nf true s /\ b = false)).
Proof.
  intros Hb Hval HT Hdir Hnf Hfl Hw. pose proof Hb as (Hv & (L' & HL) & Hs & Hm). assert (L' = L) as -> by (eapply table_unique; [apply HL|exact HT]). cbv zeta. unfold do_find.
  rewrite Hnf, Hfl, Hw. cbn [andb negb]. set (dr := if c_reverse c then 0 - dir else dir). assert (Hdr : dr = 1 \/ dr = -1) by (unfold dr; destruct (c_reverse c); lia).
  assert (Ef : t_fstr s = []). { destruct (t_fstr s) eqn:E; [reflexivity|]. destruct HL as (_ & _ & _ & _ & _ & D2). rewrite E in D2. destruct (D2 ltac:(discriminate)) as (_ & _ & D3 & _). congruence. }
  pose proof (count_pos hit c _ _ HL Ef) as Hc. assert (Hn : t_count s = Z.of_nat (length L)).
  { pose proof (shown_length hit c _ _ HL) as H. unfold TlSpec.shown in H. rewrite Ef in H. exact H. }
  set (i0 := if fb then (if c_reverse c then t_count s - 1 else 0) else t_index s).
  assert (Hi0 : 0 <= i0 < t_count s). { unfold i0. destruct Hval as (V1 & _). replace (t_count s =? 0) with false in V1 by lia. destruct fb; [destruct (c_reverse c)|]; lia. }
  set (o := if adv then advance i0 dr (t_count s) else i0).
  assert (Ho : 0 <= o < t_count s). { unfold o. destruct adv; [|exact Hi0]. rewrite advance_mod by auto. apply Z.mod_pos_bound. lia. }
  assert (Hsh : forall j, (o + dr * j) mod t_count s = nth_from i0 dr (j + if adv then 1 else 0) (t_count s)).
  { intros j. unfold o. destruct adv; [apply nth_from_shift; auto|]. rewrite Z.add_0_r. reflexivity. }
  destruct (find_from hit begins c s dr o Hdr Ho (fun i => item_there hit c s L i HL)) as [(j & Hj & G1 & G2 & ->)|[G ->]].
  - assert (Hp : 0 <= (o + dr * j) mod t_count s < t_count s) by (apply Z.mod_pos_bound; lia).
    destruct (center_valid c (w_index ((o + dr * j) mod t_count s) s) Hv Hp ltac:(apply Hval)) as (t & -> & Hval2).
    eexists. eexists. split; [reflexivity|]. left. exists ((o + dr * j) mod t_count s), t. split; [|split; [reflexivity|split; [exact Hval2|reflexivity]]].
    unfold first_match. cbv zeta. rewrite <- Hn. exists (j + if adv then 1 else 0). split; [destruct adv; lia|]. split; [apply Hsh|]. split; [apply (good_row s L _ HL Hw Ef); exact G1|].
    intros j' Hj' Hr. specialize (G2 (j' - if adv then 1 else 0) ltac:(destruct adv; lia)). apply (good_row s L _ HL Hw Ef) in Hr.
    rewrite Hsh in G2. replace (j' - (if adv then 1 else 0) + (if adv then 1 else 0)) with j' in G2 by lia. congruence.
  - eexists. eexists. split; [reflexivity|]. right. split; [|split; reflexivity]. unfold first_match. intros p Hr. assert (Hp : 0 <= p < t_count s) by (destruct Hr as (r & Hr & _); apply zth_range in Hr; lia).
    destruct (all_around o dr (t_count s) p Ho Hdr Hp 0) as (j & Hj & Ej). specialize (G j ltac:(lia)). unfold nth_from in Ej. rewrite Ej in G. apply (good_row s L _ HL Hw Ef) in Hr. congruence.
Qed.

(** ** Typing *)
Lemma collect_plain keys : c_win c = false -> forall x need, exists t n, fold_left (collect c) keys (x, need) = (w_title t (w_needle (t_needle x ++ printable keys) x), n) /\ (need = true -> n = true).
Proof.
  intros Hw. induction keys as [|b keys IH]; intros x need; cbn [fold_left printable filter].
  - rewrite app_nil_r. exists (t_title x), need. split; [destruct x; reflexivity|auto].
  - cbn [collect]. rewrite Hw. cbn [negb]. destruct (Nat.ltb (nat_of_ascii b) 32); cbn [negb]; [apply IH|].
    destruct (IH (w_needle (t_needle x ++ [b]) (w_title false x)) true) as (t & n & -> & Hn). exists t, n. cbn [t_needle w_needle w_title]. rewrite <- app_assoc. cbn [app]. split; [reflexivity|auto].
Qed.
Lemma typed_filter e keys s d : inv s d -> (t_fstr s <> [] -> whole (t_fstr s)) -> c_win c = false -> t_filt s = true -> t_nf s = false -> e_queued e = false -> e_busy e = false ->
  exists s', on_input hit begins c e (k_text keys) s = Go s' /\ t_fstr s' = t_needle s ++ printable keys /\ t_needle s' = t_needle s ++ printable keys /\ same s s' /\ inv s' d.
Proof.
  intros Hi Hwh Hw Hfl Hnf Hq Hbu. pose proof Hi as (Hb & Hty & Hval). unfold on_input. replace (c_vis c <=? 0) with false by (destruct Hb as (H & _); lia). cbn [settle act].
  unfold text. set (x := if t_clr (w_ign false s) then _ else _).
  assert (exists g, x = w_clr g (w_ign false s)) as [g Ex].
  { unfold x. destruct (t_clr (w_ign false s)) eqn:Ec; [|exists (t_clr (w_ign false s)); destruct s; reflexivity]. cbn [t_filt w_ign]. rewrite Hfl. eexists. reflexivity. }
  clearbody x. subst x. destruct (collect_plain keys Hw (w_clr g (w_ign false s)) false) as (t & n & Ef & _).
  pose proof (collect_all hit c keys d (w_clr g (w_ign false s)) false Hb Hval) as Hy. cbv zeta in Hy. rewrite Ef in *. cbn [fst] in Hy. set (y := w_title t _) in *.
  destruct Hy as (Y1 & Y2 & Y3 & Y4). unfold update_needle. cbv zeta. rewrite Hw. cbn [negb].
  assert (Ey : t_nf y = false /\ t_filt y = true /\ t_fstr y = t_fstr s /\ t_needle y = t_needle s ++ printable keys /\ same s y) by (unfold y, same; cbn; auto 10).
  clearbody y. destruct Ey as (E1 & E2 & E3 & E4 & E5). cbn [t_nf t_filt t_needle w_title]. rewrite E1, Hq. cbn [andb].
  assert (Hf2 : do_find hit begins c (e_busy e) 1 false false (w_title (negb (is_nil (t_needle y))) y) = filter_items hit c (e_busy e) (w_title (negb (is_nil (t_needle y))) y)).
  { unfold do_find. cbn [t_nf t_filt w_title]. rewrite E1, E2, Hw. reflexivity. }
  rewrite Hf2. destruct (filter_items_inv hit whole hit_more c (e_busy e) (w_title (negb (is_nil (t_needle y))) y) d) as (s' & b & Es & Hi' & N1 & N2 & _ & N3 & _).
  - intros H. right. cbn [t_fstr w_title] in *. rewrite E3 in *. auto.
  - exact Y1.
  - exact Y2.
  - exact E2.
  - exact Hw.
  - exact E1.
  - rewrite Es. cbn [then_display]. pose proof (filter_items_same hit c _ _ _ _ Es) as Hsame. specialize (N3 Hbu). cbn [t_needle w_title] in N1, N3. rewrite E4 in N1, N3.
    assert (Hsame2 : same s s') by (eapply same_trans; [exact E5|exact Hsame]).
    assert (Hout : exists s2, (if b || n then display c s' else Some s') = Some s2 /\ inv s2 d /\ t_fstr s2 = t_fstr s' /\ t_needle s2 = t_needle s' /\ same s' s2).
    { destruct (b || n); [|exists s'; auto using same_refl]. destruct (display_exact hit c s' d) as (s2 & F1 & F2 & _ & _ & F5 & _ & F7 & _ & _ & F10 & _); [apply Hi'|apply Hi'|apply (inv_inside hit c _ d Hi')|].
      exists s2. auto. }
    destruct Hout as (s2 & -> & O1 & O2 & O3 & O4). exists s2. cbn [finish andb]. split; [reflexivity|]. split; [congruence|]. split; [congruence|]. split; [eapply same_trans; eassumption|exact O1].
Qed.
Lemma typed_find e keys s d L : inv s d -> table s L -> c_win c = false -> t_filt s = false -> (t_clr s = true \/ t_nf s = false) -> e_queued e = false ->
  let needle := (if t_clr s then [] else t_needle s) ++ printable keys in
  exists s', on_input hit begins c e (k_text keys) s = Go s' /\ t_needle s' = needle /\ same s s' /\ t_fstr s' = [] /\
   ((exists p, first_match needle L (t_index s) (if c_reverse c then -1 else 1) 0 (Some p) /\ t_index s' = p /\ t_nf s' = false) \/
    (first_match needle L (t_index s) (if c_reverse c then -1 else 1) 0 None /\ t_index s' = t_index s /\ t_nf s' = true)).
Proof.
  intros Hi HT Hw Hfl Hnf Hq. pose proof Hi as (Hb & Hty & Hval). unfold on_input. replace (c_vis c <=? 0) with false by (destruct Hb as (H & _); lia). cbn [settle act].
  assert (Ef0 : t_fstr s = []). { destruct (t_fstr s) eqn:E; [reflexivity|]. destruct Hb as (_ & (L' & HL) & _). destruct HL as (_ & _ & _ & _ & _ & D2). rewrite E in D2. destruct (D2 ltac:(discriminate)) as (_ & _ & D3 & _). congruence. }
  unfold text. set (x := if t_clr (w_ign false s) then _ else _).
  assert (Hx : base x d /\ valid c x /\ t_nf x = false /\ t_filt x = false /\ t_fstr x = [] /\ t_needle x = (if t_clr s then [] else t_needle s) /\ t_index x = t_index s /\ same s x).
  { unfold x. cbn [t_clr t_filt w_ign]. rewrite Hfl. destruct (t_clr s) eqn:Ec.
    - pose proof Hb as (Hv & HL & Hs & (M1 & M2 & M3 & M4)). split; [|split; [exact Hval|unfold same; cbn; auto 20]].
      split; [exact Hv|]. split; [exact HL|]. split; [exact Hs|]. split; [reflexivity|]. split; [exact M2|]. split; [|intros; discriminate]. intros H. destruct (M3 H) as [H1 _]. destruct (H1 Ef0).
    - split; [exact Hb|]. split; [exact Hval|]. destruct Hnf as [H|H]; [discriminate|]. unfold same; cbn; auto 20. }
  clearbody x. destruct Hx as (X1 & X2 & X3 & X4 & X5 & X6 & X7 & X8). destruct (collect_plain keys Hw x false) as (t & n & Ef & _).
  pose proof (collect_all hit c keys d x false X1 X2) as Hy. cbv zeta in Hy. rewrite Ef in *. cbn [fst] in Hy. set (y := w_title t _) in *.
  destruct Hy as (Y1 & Y2 & Y3 & Y4). unfold update_needle. cbv zeta. rewrite Hw. cbn [negb]. rewrite <- X6.
  assert (Ey : t_nf y = false /\ t_filt y = false /\ t_fstr y = [] /\ t_needle y = t_needle x ++ printable keys /\ same s y /\ t_index y = t_index s) by (unfold y; cbn; auto 20).
  clearbody y. destruct Ey as (E1 & E2 & E3 & E4 & E5 & E6). cbn [t_nf t_filt t_needle w_title]. rewrite E1, Hq. cbn [andb].
  assert (HTy : table (w_title (negb (is_nil (t_needle y))) y) L) by (apply (same_table s); [exact E5|exact HT]).
  destruct (do_find_spec (e_busy e) 1 false false (w_title (negb (is_nil (t_needle y))) y) d L Y1 Y2 HTy (or_introl eq_refl) E1 E2 Hw) as (s' & b & Es & Hcase).
  cbv zeta in Hcase. cbn [t_needle t_index w_title] in Hcase. rewrite E4, E6 in Hcase. change (0 - 1) with (-1) in Hcase. rewrite Es. cbn [then_display].
  assert (Hs' : base s' d /\ typed s' /\ valid c s' /\ same s s' /\ t_fstr s' = [] /\ t_needle s' = t_needle x ++ printable keys).
  { destruct Hcase as [(p & tp & _ & -> & Hv2 & _)|(_ & -> & _)].
    - split; [exact Y1|]. split; [intros H; destruct (H E3)|]. split; [exact Hv2|]. split; [exact E5|]. auto.
    - split; [|split; [intros H; destruct (H E3)|split; [exact Y2|split; [exact E5|auto]]]]. destruct Y1 as (Hv & HL & Hs & (M1 & M2 & M3 & M4)).
      split; [exact Hv|]. split; [exact HL|]. split; [exact Hs|]. split; [intros H; destruct (H E3)|]. split; [exact M2|]. split; [exact M3|exact M4]. }
  destruct Hs' as (S1 & S2 & S3 & S4 & S5 & S6).
  assert (Hout : exists s2, (if b || n then display c s' else Some s') = Some s2 /\ t_needle s2 = t_needle s' /\ t_index s2 = t_index s' /\ t_nf s2 = t_nf s' /\ t_fstr s2 = t_fstr s' /\ same s' s2).
  { destruct (b || n); [|exists s'; auto 10 using same_refl]. destruct (display_exact hit c s' d S1 S2) as (s2 & F1 & F2 & F3 & F4 & F5 & F6 & F7 & F8 & _ & F10 & _).
    - apply valid_inside; [apply S1|apply (count_nonneg hit c _ _ S1)|exact S3].
    - exists s2. auto 10. }
  destruct Hout as (s2 & -> & O1 & O2 & O3 & O4 & O5). exists s2. cbn [finish andb]. split; [reflexivity|]. split; [congruence|]. split; [eapply same_trans; eassumption|]. split; [congruence|].
  destruct Hcase as [(p & tp & Hfm & Ep & _)|(Hfm & Ep & _)].
  - left. exists p. split; [exact Hfm|]. rewrite O2, O3, Ep. split; [reflexivity|exact E1].
  - right. split; [exact Hfm|]. rewrite O2, O3, Ep. split; [exact E6|reflexivity].
Qed.
Lemma find_key e dir s d L : inv s d -> table s L -> t_pend s = None -> c_win c = false -> t_filt s = false -> t_nf s = false -> dir = 1 \/ dir = -1 ->
  exists s', on_input hit begins c e (if dir =? 1 then k_findnext else k_findprev) s = Go s' /\ t_needle s' = t_needle s /\ same s s' /\
   ((exists p, first_match (t_needle s) L (t_index s) (if c_reverse c then 0 - dir else dir) 1 (Some p) /\ t_index s' = p /\ t_nf s' = false) \/
    (first_match (t_needle s) L (t_index s) (if c_reverse c then 0 - dir else dir) 1 None /\ t_index s' = t_index s /\ t_nf s' = true)).
Proof.
  intros Hi HT Hp Hw Hfl Hnf Hdir. pose proof Hi as (Hb & Hty & Hval). rewrite on_input_now by (auto; apply Hb).
  assert (Ef0 : t_fstr s = []). { destruct (t_fstr s) eqn:E; [reflexivity|]. destruct Hb as (_ & (L' & HL) & _). destruct HL as (_ & _ & _ & _ & _ & D2). rewrite E in D2. destruct (D2 ltac:(discriminate)) as (_ & _ & D3 & _). congruence. }
  assert (Ea : act hit begins c e (if dir =? 1 then k_findnext else k_findprev) (w_ign false s) = finish c false (then_display c (do_find hit begins c (e_busy e) dir false true (w_ign false s)) false)).
  { destruct Hdir as [-> | ->]; [change (1 =? 1) with true|change (-1 =? 1) with false]; cbn [act]; rewrite Hw; reflexivity. }
  rewrite Ea. assert (HT2 : table (w_ign false s) L) by exact HT.
  destruct (do_find_spec (e_busy e) dir false true (w_ign false s) d L Hb Hval HT2 Hdir Hnf Hfl Hw) as (s' & b & -> & Hcase). cbv zeta in Hcase. cbn [t_needle t_index w_ign] in Hcase.
  cbn [then_display]. rewrite Bool.orb_false_r. destruct Hcase as [(p & tp & Hfm & -> & Hv2 & ->)|(Hfm & -> & ->)].
  - destruct (display_exact hit c (w_top tp (w_index p (w_ign false s))) d) as (s2 & -> & F2 & F3 & F4 & F5 & F6 & F7 & F8 & _ & F10 & _); [exact Hb|exact Hty|apply valid_inside; [apply Hb|apply (count_nonneg hit c _ _ Hb)|exact Hv2]|].
    exists s2. cbn [finish andb]. split; [reflexivity|]. split; [exact F7|]. split; [exact F10|]. left. exists p. split; [exact Hfm|]. split; [exact F3|]. rewrite F8. exact Hnf.
  - eexists. cbn [finish andb]. split; [reflexivity|]. split; [reflexivity|]. split; [unfold same; cbn; auto 10|]. right. split; [exact Hfm|]. split; reflexivity.
Qed.

(** ** Numbers *)
Lemma collect_digits keys : c_win c = true -> forallb is_digit keys = true -> forall x need, t_isnum x = true -> (length (t_needle x) + length keys <= 6)%nat ->
  exists n, fold_left (collect c) keys (x, need) = (w_needle (t_needle x ++ keys) x, n).
Proof.
  intros Hw. induction keys as [|b keys IH]; intros Hd x need Hn Hl; cbn [fold_left].
  - rewrite app_nil_r. exists need. destruct x; reflexivity.
  - cbn [forallb] in Hd. apply andb_prop in Hd. destruct Hd as [Hd1 Hd2]. cbn [length] in Hl.
    assert (E : collect c (x, need) b = (w_needle (t_needle x ++ [b]) x, need)).
    { unfold collect. assert (Nat.ltb (nat_of_ascii b) 32 = false) as ->. { destruct b as [[] [] [] [] [] [] [] []]; try reflexivity; discriminate Hd1. }
      rewrite Hw, Hd1, Hn. cbn [negb]. assert (Nat.ltb (length (t_needle x)) 6 = true) as -> by (apply Nat.ltb_lt; lia). reflexivity. }
    rewrite E. destruct (IH Hd2 (w_needle (t_needle x ++ [b]) x) need Hn) as (n & ->); [cbn [t_needle w_needle]; rewrite app_length; cbn [length]; lia|].
    exists n. cbn [t_needle w_needle]. rewrite <- app_assoc. reflexivity.
Qed.

Lemma typed_number e keys s d L l : inv s d -> table s L -> c_win c = true -> t_infos s = Some l -> t_isnum s = false ->
  keys <> [] -> forallb is_digit keys = true -> (length keys <= 6)%nat -> dec (undec 0 keys) = keys ->
  exists s', on_input hit begins c e (k_text keys) s = Go s' /\ same s s' /\
    ((exists r, zth L (t_index s') = Some r /\ prefixb keys (dec (Z.to_N (r_number r + 1))) = true /\
        forall k r', k < t_index s' -> zth L k = Some r' -> prefixb keys (dec (Z.to_N (r_number r' + 1))) = false) \/
     ((forall k r', zth L k = Some r' -> prefixb keys (dec (Z.to_N (r_number r' + 1))) = false) /\ t_index s' = t_index s)).
Proof.
  intros Hi HT Hw Hl Hn Hk Hd Hlen Hdec. pose proof Hi as (Hb & Hty & Hval). unfold on_input. replace (c_vis c <=? 0) with false by (destruct Hb as (H & _); lia). cbn [settle act].
  unfold text. set (x := if t_clr (w_ign false s) then _ else _). destruct (win_plain hit c _ _ Hb Hw) as [Hf ->].
  assert (Hx : base x false /\ valid c x /\ t_isnum x = false /\ t_index x = t_index s /\ same s x /\ t_fstr x = []).
  { unfold x. cbn [t_clr t_filt w_ign]. pose proof Hb as (Hv & HL & Hs & (M1 & M2 & M3 & M4)). destruct (t_clr s); [|split; [exact Hb|split; [exact Hval|unfold same; cbn; auto 20]]].
    destruct (t_filt s); (split; [|split; [exact Hval|unfold same; cbn; auto 20]]); [exact Hb|].
    split; [exact Hv|]. split; [exact HL|]. split; [exact Hs|]. split; [reflexivity|]. split; [exact M2|]. split; intros; discriminate. }
  clearbody x. destruct Hx as (X1 & X2 & X3 & X4 & X5 & X6). destruct keys as [|b keys]; [contradiction|].
  cbn [forallb] in Hd. apply andb_prop in Hd. destruct Hd as [Hd1 Hd2]. cbn [length] in Hlen.
  pose proof (collect_all hit c (b :: keys) false x false X1 X2) as Hy. cbv zeta in Hy. cbn [fold_left] in *.
  assert (E : exists t n, collect c (x, false) b = (w_needle [b] (w_isnum true (w_nf false (w_needle [] (w_title t x)))), n)).
  { unfold collect. assert (Nat.ltb (nat_of_ascii b) 32 = false) as -> by (destruct b as [[] [] [] [] [] [] [] []]; try reflexivity; discriminate Hd1).
    rewrite Hw, Hd1, X3. cbn [negb]. exists false. eexists. reflexivity. }
  destruct E as (t & n & E). rewrite E in *. set (x1 := w_needle [b] _) in *.
  destruct (collect_digits keys Hw Hd2 x1 n eq_refl) as (n2 & E2); [cbn [t_needle x1 w_needle length]; lia|]. rewrite E2 in *. cbn [fst] in Hy.
  set (y := w_needle (t_needle x1 ++ keys) x1) in *. destruct Hy as (Y1 & Y2 & Y3 & Y4).
  assert (Ey : t_isnum y = true /\ t_needle y = b :: keys /\ t_index y = t_index s /\ same s y) by (unfold y, x1; cbn; auto). clearbody y. destruct Ey as (E3 & E4 & E5 & E6).
  unfold update_needle. cbv zeta. rewrite Hw, E3, E4. cbn [negb is_nil]. unfold enter_number. cbv zeta. cbn [t_needle t_infos t_count w_title]. rewrite E4, Hdec.
  assert (Hly : t_infos y = Some l) by (destruct E6 as (_ & _ & -> & _); exact Hl). rewrite Hly. pose proof Y1 as (Hv & (L' & HL) & _).
  assert (L' = L) as -> by (eapply table_unique; [apply HL|apply (same_table s); assumption]).
  assert (Hsh : shown hit y L = L) by (unfold shown; rewrite Y4, X6; reflexivity). pose proof (shown_length hit c _ _ HL) as Hcn. rewrite Hsh in Hcn.
  assert (HLt : data (w_title true y) L) by exact HL.
  destruct (lookup_some hit begins whole hit_more c (w_title true y) L l (b :: keys) HLt Hly (Z.to_nat (t_count y)) 0 ltac:(lia) ltac:(cbn [t_count w_title]; lia)) as (j & -> & Hj & J1 & J2).
  assert (Hsh2 : shown hit (w_title true y) L = L) by exact Hsh. rewrite Hsh2 in J1, J2. change (t_count (w_title true y)) with (t_count y).
  assert (Hyi : inv y false) by (split; [exact Y1|split; [intros H; rewrite Y4, X6 in H; destruct (H eq_refl)|exact Y2]]).
  destruct ((0 <=? j) && (j <? t_count y)) eqn:Ej.
  - destruct (center_valid c (w_index j (w_title true y)) Hv) as (tp & Ec & Hval2); [cbn [t_index t_count w_index w_title]; lia|exact (proj1 (proj2 Y2))|]. rewrite Ec.
    destruct (display_exact hit c (w_top tp (w_index j (w_title true y))) false) as (s2 & -> & F2 & F3 & _ & _ & _ & _ & _ & _ & F10 & _); [exact Y1|apply Hyi|apply valid_inside; [exact Hv|cbn [t_count w_top w_index w_title]; lia|exact Hval2]|].
    exists s2. cbn [finish andb]. split; [reflexivity|]. split; [eapply same_trans; [exact E6|exact F10]|]. cbn [t_index w_top w_index] in F3. rewrite F3. left.
    destruct (J2 ltac:(lia)) as (r & R1 & R2). exists r. split; [exact R1|]. split; [exact R2|]. intros k r' Hk2 Hr'. apply (J1 k r'); [|exact Hr']. apply zth_range in Hr'. lia.
  - destruct (display_exact hit c (w_title true y) false) as (s2 & -> & F2 & F3 & _ & _ & _ & _ & _ & _ & F10 & _); [exact Y1|apply Hyi|apply (inv_inside hit c _ false Hyi)|].
    exists s2. cbn [finish andb]. split; [reflexivity|]. split; [eapply same_trans; [exact E6|exact F10]|]. cbn [t_index w_title] in F3. rewrite F3. right.
    split; [|exact E5]. intros k r' Hr'. apply (J1 k r'); [|exact Hr']. apply zth_range in Hr'. lia.
Qed.
End Find.
