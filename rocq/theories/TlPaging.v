(** Proofs about the popup lists: where the keys take the selection, and what they leave alone. *)
From Verif Require Import Base SmallModel TlModel TlSpec TlProofs TlSteps TlInput.
Local Open Scope Z_scope.

(** What only Delete changes *)
Definition same (s s' : st) : Prop :=
  t_entries s' = t_entries s /\ t_items s' = t_items s /\ t_infos s' = t_infos s /\ t_ext s' = t_ext s /\ t_ocount s' = t_ocount s.
Lemma same_refl s : same s s. Proof. unfold same. auto 10. Qed.
Lemma same_trans a b d : same a b -> same b d -> same a d.
Proof. unfold same. intros (A1 & A2 & A3 & A4 & A5) (B1 & B2 & B3 & B4 & B5). repeat split; congruence. Qed.
Lemma same_table s s' L : same s s' -> table s L -> table s' L.
Proof. unfold same, table. intros (-> & -> & -> & _ & ->). auto. Qed.
Lemma same_linked s s' L : same s s' -> linked s L -> linked s' L.
Proof. unfold same, linked. intros (_ & _ & _ & -> & _). auto. Qed.
Lemma table_unique s L L' : table s L -> table s L' -> L = L'.
Proof.
  intros (A1 & (x & A2) & A3 & A4) (B1 & (y & B2) & B3 & B4). assert (Hl : length L = length L') by lia.
  assert (He : map r_entry L = map r_entry L').
  { rewrite A2 in B2. assert (H : firstn (length L) (map r_entry L ++ x) = firstn (length L) (map r_entry L' ++ y)) by congruence.
    rewrite !firstn_app, !firstn_all2 in H by (rewrite map_length; lia). rewrite !map_length, <- Hl, Nat.sub_diag in H. cbn [firstn] in H. rewrite !app_nil_r in H. rewrite H. apply firstn_all2. rewrite map_length. lia. }
  assert (Hi : map r_item L = map r_item L') by congruence.
  assert (Hn : map r_number L = map r_number L').
  { destruct (t_infos s) as [l|].
    - destruct A4 as [u A4], B4 as [v B4]. rewrite A4 in B4. assert (H : firstn (length L) (map r_number L ++ u) = firstn (length L) (map r_number L' ++ v)) by congruence.
      rewrite !firstn_app, !firstn_all2 in H by (rewrite map_length; lia). rewrite !map_length, <- Hl, Nat.sub_diag in H. cbn [firstn] in H. rewrite !app_nil_r in H. rewrite H. apply firstn_all2. rewrite map_length. lia.
    - rewrite A4, B4, Hl. reflexivity. }
  clear - He Hi Hn. revert L' He Hi Hn. induction L as [|r L IH]; intros [|r' L'] He Hi Hn; try discriminate; [reflexivity|]. cbn [map] in *.
  injection He as E1 E2. injection Hi as E3 E4. injection Hn as E5 E6. f_equal; [destruct r, r'; cbn in *; congruence|apply IH; assumption].
Qed.

(** The selection keeps its distance from the edges of the window, except at the ends of the list. *)
Definition margin (c : cfg) (s : st) : Prop :=
  t_top s <= Z.max 0 (t_index s - scroll_offset c) /\
  Z.min (t_count s - rows c s) (t_index s + scroll_offset c - rows c s + 1) <= t_top s.
Lemma update_top_margin c s : inside c s -> 0 < t_count s -> t_ign s = false -> margin c (update_top c s).
Proof.
  intros Hin Hpos Hig. pose proof (update_top_valid c s Hin) as Hval. destruct Hin as (Hv & Hc & Hi & Ht). destruct (scroll_offset_range c Hv) as [Ho1 Ho2].
  destruct (update_top_is c s) as (t & g & E). unfold margin, rows. rewrite E in *. destruct Hval as (V1 & V2 & V3). cbn [t_top t_index t_count w_ign w_top] in *.
  replace (t_count s =? 0) with false in Hi by lia.
  assert (Et : t_top (update_top c s) = t) by (rewrite E; reflexivity). rewrite <- Et in *. clear E t g Et V1 V2 V3.
  assert (Hst : forall t x, t_top (set_top t false x) = t) by (intros t x; destruct (set_top_is t false x) as [g ->]; reflexivity).
  assert (Hsi : forall t x, t_ign x = false -> t_ign (set_top t false x) = false) by (intros t x H; unfold set_top; destruct (t =? t_top x); [exact H|reflexivity]).
  unfold update_top. cbv zeta. match goal with |- context [t_ign ?x] => set (s1 := x) end.
  assert (H1 : t_ign s1 = false) by (unfold s1; destruct (_ <? _); [apply Hsi; exact Hig|]; destruct (_ <? _); [apply Hsi; exact Hig|exact Hig]).
  assert (H2 : t_top s1 = if t_index s <? t_top s then t_index s else Z.max (t_top s) (Z.max 0 (t_index s - Z.max (rows c s - 1) 0))).
  { unfold s1. destruct (t_index s <? t_top s); [apply Hst|]. destruct (t_top s <? Z.max 0 (t_index s - Z.max (rows c s - 1) 0)) eqn:E; [rewrite Hst|]; lia. }
  clearbody s1. rewrite H1. cbn [negb]. unfold rows in *. set (ofs := scroll_offset c) in *. set (r := Z.min (t_count s) (c_vis c)) in *.
  assert (Hr : r = t_count s \/ r = c_vis c) by lia. assert (Hr2 : r <= t_count s /\ r <= c_vis c) by lia. assert (Ht2 : 0 <= t_top s <= t_count s - r) by lia.
  assert (Hr3 : r = t_count s \/ 2 * ofs <= r - 1) by lia. clearbody r. clear Ht Ho2 Hr.
  assert (H3 : t_top s1 <= t_index s /\ t_index s - r + 1 <= t_top s1 /\ 0 <= t_top s1 <= t_count s - r) by (destruct (t_index s <? t_top s) eqn:E; lia). clear H2 Ht2.
  destruct (0 <? ofs) eqn:E0; [|lia]. destruct (Z.max 0 (t_index s - ofs) <? t_top s1) eqn:E1; [rewrite Hst; lia|].
  destruct (t_top s1 <? Z.min (Z.max 0 (t_count s - r)) (t_index s + ofs - r + 1)) eqn:E2; [rewrite Hst; lia|lia].
Qed.
Lemma display_margin c s s' : (0 < c_vis c) -> 0 < t_count s -> inside c s -> t_ign s = false -> display c s = Some s' -> margin c s'.
Proof.
  intros Hv Hc Hin Hig. unfold display. replace (0 <? c_vis c) with true by lia. replace (0 <? t_count s) with true by lia. cbn [orb andb].
  pose proof (update_top_margin c s Hin Hc Hig) as H. destruct (forallb _ _); [|discriminate]. intros E. injection E as <-. exact H.
Qed.

Section Paging.
Variable hit begins : bytes -> bytes -> bool.
Variable c : cfg.
Notation data := (data hit c). Notation inv := (inv hit c). Notation base := (base hit c).

Lemma display_exact x d : base x d -> typed x -> inside c x -> exists s', display c x = Some s' /\ inv s' d /\ t_index s' = t_index x /\ t_count s' = t_count x /\
  t_fstr s' = t_fstr x /\ t_pend s' = t_pend x /\ t_needle s' = t_needle x /\ t_nf s' = t_nf x /\ t_filt s' = t_filt x /\ same x s' /\ (0 < t_count x -> t_ign x = false -> margin c s').
Proof.
  intros Hb Ht Hin. destruct (display_inv hit c x d Hb Ht Hin) as (t & g & y & E & Hi). eexists. split; [exact E|]. split; [exact Hi|].
  do 7 (split; [reflexivity|]). split; [unfold same; auto 10|]. intros Hc Hig. eapply display_margin; [apply Hb|exact Hc|exact Hin|exact Hig|exact E].
Qed.
Lemma navigated_go x d : base x d -> typed x -> 0 <= t_top x <= Z.max 0 (t_count x - c_vis c) -> t_index x <= Z.max 0 (t_count x - 1) ->
  exists s', navigated c x = Go s' /\ inv s' d /\ t_index s' = Z.max 0 (t_index x) /\ t_count s' = t_count x /\ t_fstr s' = t_fstr x /\ t_pend s' = t_pend x /\ same x s' /\
    (0 < t_count x -> t_ign x = false -> margin c s').
Proof.
  intros Hb Hty Ht Hi. pose proof (count_nonneg hit c _ _ Hb) as Hc. unfold navigated. cbv zeta.
  set (y := if t_isnum x then w_title false (w_clr false (w_isnum false (w_nf false (w_needle [] x)))) else x).
  assert (Hy : base y d /\ typed y /\ t_index y = t_index x /\ t_count y = t_count x /\ t_fstr y = t_fstr x /\ t_pend y = t_pend x /\ t_top y = t_top x /\ t_ign y = t_ign x /\ same x y).
  { unfold y. destruct (t_isnum x) eqn:En; [|unfold same; auto 20]. pose proof Hb as (Hv & HL & Hs & (M1 & M2 & M3 & M4)). destruct (win_plain hit c _ _ Hb (M4 En)) as [Hf ->].
    split; [|split; [intros H; destruct (H Hf)|unfold same; cbn; auto 20]]. split; [exact Hv|]. split; [exact HL|]. split; [exact Hs|]. split; [reflexivity|]. split; [exact M2|]. split; intros; discriminate. }
  clearbody y. destruct Hy as (Y1 & Y2 & Y3 & Y4 & Y5 & Y6 & Y7 & Y8 & Y9). rewrite Y3.
  destruct (display_exact (w_index (Z.max 0 (t_index x)) y) d) as (s' & -> & Hi' & E1 & E2 & E3 & E4 & _ & _ & _ & E5 & E6); [exact Y1|exact Y2| |].
  - split; [apply Hb|]. cbn [t_count t_index t_top w_index]. rewrite Y4, Y7. split; [exact Hc|]. split; [|exact Ht]. destruct (t_count x =? 0) eqn:E0; lia.
  - cbn [t_count t_index t_top t_ign t_fstr t_pend w_index] in *. rewrite Y4, Y8 in E6. cbn [finish].
    exists (if true && negb (c_win c) then w_clr true s' else s'). split; [reflexivity|].
    assert (Hsame : same x s') by (eapply same_trans; [exact Y9|exact E5]).
    destruct (true && negb (c_win c)); (split; [exact Hi'|]); cbn [t_index t_count t_fstr t_pend w_clr]; rewrite E1, E2, E3, E4, Y4, Y5, Y6; auto 10.
Qed.
Lemma moved_go i s d : inv s d -> i <= Z.max 0 (t_count s - 1) ->
  exists s', navigated c (w_index i s) = Go s' /\ inv s' d /\ t_index s' = Z.max 0 i /\ t_count s' = t_count s /\ t_fstr s' = t_fstr s /\ t_pend s' = t_pend s /\ same s s' /\
    (0 < t_count s -> t_ign s = false -> margin c s').
Proof. intros H Hi. destruct (navigated_go (w_index i s) d) as (s' & H'); [apply H|apply H|apply H|exact Hi|]. exists s'. exact H'. Qed.

(** A key pressed several times *)
Fixpoint presses (n : nat) (e : env) (k : key) (s : st) : outcome :=
  match n with O => Go s | S m => match on_input hit begins c e k s with Go s' => presses m e k s' | o => o end end.
Lemma on_input_now e k s : 0 < c_vis c -> t_pend s = None -> on_input hit begins c e k s = act hit begins c e k (w_ign false s).
Proof.
  intros Hv Hp. unfold on_input, settle. replace (c_vis c <=? 0) with false by lia. cbn [t_pend w_ign]. rewrite Hp. destruct k; reflexivity.
Qed.

Lemma page_up_begins e d : forall m s, inv s d -> t_pend s = None -> scroll_offset c < rows c s -> t_index s < Z.of_nat m ->
  exists n s', presses n e k_pgup s = Go s' /\ t_index s' = 0 /\ t_count s' = t_count s.
Proof.
  induction m as [|m IH]; intros s Hi Hp Hr Hm; pose proof Hi as (Hb & _ & Hval); pose proof (valid_index c _ Hval (count_nonneg hit c _ _ Hb)) as Hix; [lia|].
  destruct (Z.eq_dec (t_index s) 0) as [E0|E0]; [exists O, s; cbn [presses]; auto|].
  assert (Hstep : exists y, 0 <= y < t_index s /\ act hit begins c e k_pgup (w_ign false s) = navigated c (w_index y (w_ign false s))).
  { cbn [act]. unfold page_up. cbv zeta. cbn [t_index t_top w_ign]. replace (0 <? t_index s) with true by lia. eexists. split; [|reflexivity].
    change (rows c (w_ign false s)) with (rows c s). destruct (scroll_offset_range c ltac:(apply Hb)) as [O1 O2]. pose proof Hval as (_ & V & _).
    destruct (t_index s <=? t_top s + scroll_offset c) eqn:E; lia. }
  destruct Hstep as (y & Hy & Ea). destruct (moved_go y (w_ign false s) d) as (s' & En & Hi' & E1 & E2 & _ & E4 & _); [exact Hi|cbn [t_count w_ign]; lia|].
  cbn [t_count t_pend w_ign] in *. destruct (IH s' Hi') as (n & s2 & P1 & P2 & P3); [congruence|unfold rows in *; rewrite E2; exact Hr|lia|].
  exists (S n), s2. cbn [presses]. rewrite on_input_now by (auto; apply Hb). rewrite Ea, En. split; [exact P1|]. split; [exact P2|congruence].
Qed.
Lemma page_down_step e s d : inv s d -> t_pend s = None -> t_index s < t_count s - 1 ->
  let b := t_top s + (rows c s - scroll_offset c) - 1 in
  exists s', on_input hit begins c e k_pgdn s = Go s' /\ inv s' d /\ t_pend s' = None /\ t_count s' = t_count s /\ margin c s' /\
    t_index s' = Z.max 0 (Z.min (t_count s - 1) (if t_index s =? b then t_index s + (rows c s - scroll_offset c) else b)).
Proof.
  intros Hi Hp Hlt b. pose proof Hi as (Hb & _ & Hval). rewrite on_input_now by (auto; apply Hb). cbn [act]. unfold page_down. cbv zeta. cbn [t_index t_top t_count w_ign].
  change (rows c (w_ign false s)) with (rows c s). replace (t_index s <? t_count s - 1) with true by lia. fold b.
  set (y := Z.min (t_count s - 1) (if t_index s =? b then t_index s + (rows c s - scroll_offset c) else b)).
  replace (t_count s - 1 <? y) with false by lia. pose proof (valid_index c _ Hval (count_nonneg hit c _ _ Hb)) as Hix.
  destruct (moved_go y (w_ign false s) d) as (s' & En & Hi' & E1 & E2 & _ & E4 & _ & E6); [exact Hi|cbn [t_count w_ign]; lia|].
  cbn [t_count t_pend t_ign w_ign] in *. exists s'. split; [exact En|]. split; [exact Hi'|]. split; [congruence|]. split; [exact E2|]. split; [apply E6; [lia|reflexivity]|exact E1].
Qed.
Lemma page_down_near e d : forall m s, inv s d -> t_pend s = None -> margin c s -> 0 < t_count s -> 2 * scroll_offset c <= t_count s -> t_count s - t_index s <= Z.of_nat m ->
  exists n s', presses n e k_pgdn s = Go s' /\ t_index s' = t_count s' - 1 /\ t_count s' = t_count s.
Proof.
  induction m as [|m IH]; intros s Hi Hp Hmg Hpos Hr Hm; pose proof Hi as (Hb & _ & Hval); pose proof (valid_index c _ Hval (count_nonneg hit c _ _ Hb)) as Hix; [lia|].
  destruct (Z.eq_dec (t_index s) (t_count s - 1)) as [E0|E0]; [exists O, s; cbn [presses]; auto|].
  destruct (scroll_offset_range c ltac:(apply Hb)) as [O1 O2]. pose proof Hb as (Hv & _). pose proof Hval as (_ & V2 & V3).
  destruct (page_down_step e s d Hi Hp ltac:(lia)) as (s1 & P1 & P2 & P3 & P4 & P5 & P6). unfold margin, rows in *.
  destruct (Z_lt_le_dec (t_top s + (Z.min (t_count s) (c_vis c) - scroll_offset c) - 1) (t_index s)) as [Hb1|Hb1].
  - (* past the bottom: two more *)
    assert (Htop : t_top s = t_count s - Z.min (t_count s) (c_vis c)) by lia.
    match type of P6 with context [if ?b then _ else _] => replace b with false in P6 by lia end.
    assert (Hy : t_index s1 = t_count s - scroll_offset c - 1) by lia. pose proof P2 as (_ & _ & Hval1). pose proof Hval1 as (_ & W2 & W3).
    clear Hmg V2 V3 Hb1 P6 Hm.
    assert (Htop1 : t_top s1 = t_count s - Z.min (t_count s) (c_vis c)) by lia. clear P5 W2 W3.
    destruct (Z.eq_dec (t_index s1) (t_count s - 1)) as [E1|E1].
    { exists 1%nat, s1. cbn [presses]. rewrite P1. split; [reflexivity|]. split; [congruence|exact P4]. }
    destruct (page_down_step e s1 d P2 P3 ltac:(lia)) as (s2 & Q1 & Q2 & Q3 & Q4 & Q5 & Q6). unfold rows in Q6. rewrite P4, Htop1 in Q6.
    match type of Q6 with context [if ?b then _ else _] => replace b with true in Q6 by lia end. rewrite Hy in Q6.
    exists 2%nat, s2. cbn [presses]. rewrite P1, Q1. split; [reflexivity|]. split; lia.
  - assert (Hup : t_index s < t_index s1).
    { match type of P6 with context [if ?b then _ else _] => destruct b eqn:E end; lia. }
    destruct (IH s1 P2 P3 P5) as (n & s2 & Q1 & Q2 & Q3); [lia|lia|lia|]. exists (S n), s2. cbn [presses]. rewrite P1. split; [exact Q1|]. split; [exact Q2|congruence].
Qed.
Lemma page_down_ends e d s : inv s d -> t_pend s = None -> 0 < t_count s -> 2 * scroll_offset c <= t_count s ->
  exists n s', presses n e k_pgdn s = Go s' /\ t_index s' = t_count s' - 1 /\ t_count s' = t_count s.
Proof.
  intros Hi Hp Hpos Hr. pose proof Hi as (Hb & _ & Hval). pose proof (valid_index c _ Hval (count_nonneg hit c _ _ Hb)) as Hix.
  destruct (Z.eq_dec (t_index s) (t_count s - 1)) as [E0|E0]; [exists O, s; cbn [presses]; auto|].
  destruct (page_down_step e s d Hi Hp ltac:(lia)) as (s1 & P1 & P2 & P3 & P4 & P5 & _).
  destruct (page_down_near e d (Z.to_nat (t_count s1 - t_index s1)) s1 P2 P3 P5) as (n & s2 & Q1 & Q2 & Q3); [lia|lia|lia|].
  exists (S n), s2. cbn [presses]. rewrite P1. split; [exact Q1|]. split; [exact Q2|congruence].
Qed.

(** ** What is left alone *)
Definition kept (o : outcome) (s : st) : Prop := match o with Go s' | Ended _ s' => same s s' | Undefined => True end.
Lemma display_same x s' : display c x = Some s' -> same x s'.
Proof.
  unfold display. destruct (_ && _); [|intros E; injection E as <-; apply same_refl]. destruct (forallb _ _); [|discriminate]. intros E. injection E as <-.
  destruct (update_top_is c x) as (t & g & ->). unfold same. auto 10.
Qed.
Lemma finish_kept b r s : (forall s', r = Some s' -> same s s') -> kept (finish c b r) s.
Proof. intros H. destruct r as [s'|]; [|exact Logic.I]. cbn [finish]. specialize (H s' eq_refl). destruct (b && negb (c_win c)); exact H. Qed.
Lemma finish_display b x s : same s x -> kept (finish c b (display c x)) s.
Proof. intros H. apply finish_kept. intros s' E. eapply same_trans; [exact H|apply display_same; exact E]. Qed.
Lemma navigated_kept x s : same s x -> kept (navigated c x) s.
Proof. intros H. unfold navigated. cbv zeta. apply finish_display. destruct (t_isnum x); exact H. Qed.
Lemma filter_items_same busy s s' b : filter_items hit c busy s = Some (s', b) -> same s s'.
Proof.
  unfold filter_items. destruct (eqb_bytes _ _); [intros E; injection E as <- _; apply same_refl|]. destruct (is_nil (t_needle s)).
  { intros E. injection E as <- _. unfold clear_filter. destruct (is_nil (t_fstr s)); [apply same_refl|].
    match goal with |- context [set_top ?t ?g ?x] => destruct (set_top_is t g x) as [g' ->] end. unfold same. auto 10. }
  cbv zeta. destruct (busy && _); [intros E; injection E as <- _; apply same_refl|].
  match goal with |- match ?x with _ => _ end = _ -> _ => destruct x as [js|]; [|discriminate] end.
  match goal with |- context [set_top ?t ?g ?x] => destruct (set_top_is t g x) as [g' ->] end.
  match goal with |- context [update_top c ?x] => destruct (update_top_is c x) as (t & g2 & ->) end. intros E. injection E as <- _. unfold same. destruct (is_nil (t_fstr s)); cbn; auto 10.
Qed.
Lemma do_find_same busy dir fb adv s s' b : do_find hit begins c busy dir fb adv s = Some (s', b) -> same s s'.
Proof.
  unfold do_find. destruct (t_nf s); [intros E; injection E as <- _; apply same_refl|]. destruct (t_filt s && negb (c_win c)); [apply filter_items_same|].
  cbv zeta. match goal with |- match ?x with _ => _ end = _ -> _ => destruct x as [[i|]|]; [| |discriminate] end; intros E; injection E as <- _.
  - unfold center. destruct (_ || _); unfold same; cbn; auto 10.
  - destruct (_ && _); unfold same; cbn; auto 10.
Qed.
Lemma find_kept b busy dir fb adv need x s : same s x -> kept (finish c b (then_display c (do_find hit begins c busy dir fb adv x) need)) s.
Proof.
  intros H. apply finish_kept. intros s' E. destruct (do_find hit begins c busy dir fb adv x) as [[y sh]|] eqn:Ed; [|discriminate]. cbn [then_display] in E. apply do_find_same in Ed.
  assert (same s y) by (eapply same_trans; eassumption). destruct (sh || need); [|injection E as <-; assumption]. eapply same_trans; [eassumption|apply display_same; exact E].
Qed.
Lemma choose_kept u x s : same s x -> kept (choose u x) s.
Proof.
  intros H. unfold choose. destruct (_ && _); [|exact H]. destruct (original x (t_index x)) as [o|]; [|exact Logic.I]. destruct (zth (t_entries x) o); [exact H|exact Logic.I].
Qed.
Lemma update_kept e fb need clears x s : same s x -> kept (update_needle hit begins c e fb need clears x) s.
Proof.
  intros H. unfold update_needle. cbv zeta.
  assert (Hd : forall y, same s y -> forall b : bool, kept (finish c clears (if b then display c y else Some y)) s).
  { intros y Hy b. destruct b; [apply finish_display; exact Hy|apply finish_kept; intros s' E; injection E as <-; exact Hy]. }
  destruct (negb (c_win c)).
  - cbn [t_nf t_filt t_needle w_title]. destruct (t_nf x); [apply Hd; exact H|]. destruct (_ && _); [apply finish_kept; intros s' E; injection E as <-; exact H|]. apply find_kept. exact H.
  - destruct (t_isnum x).
    + destruct (negb (is_nil (t_needle x))); [|apply Hd; exact H]. unfold enter_number. cbv zeta.
      match goal with |- context [match ?y with None => None | Some i => _ end] => destruct y as [i|] end; [|exact Logic.I]. apply finish_display.
      destruct (_ && _); [|exact H]. unfold center. destruct (_ || _); exact H.
    + destruct (negb (is_nil (t_needle x))); [apply find_kept; exact H|apply Hd; exact H].
Qed.
Lemma collect_same b x need s : same s x -> same s (fst (collect c (x, need) b)).
Proof.
  intros H. unfold collect. destruct (Nat.ltb _ 32); [exact H|]. destruct (negb (c_win c)); [exact H|]. destruct (is_digit b); [|exact H].
  destruct (t_isnum x); destruct (Nat.ltb _ 6); exact H.
Qed.
Lemma text_kept e keys x s : same s x -> kept (text hit begins c e keys x) s.
Proof.
  intros H. unfold text. set (y := if t_clr x then _ else x). assert (Hy : same s y) by (unfold y; destruct (t_clr x); [destruct (t_filt x)|]; exact H). clearbody y.
  assert (Hf : forall keys y need, same s y -> same s (fst (fold_left (collect c) keys (y, need)))).
  { clear. induction keys as [|b keys IH]; intros y need Hy; cbn [fold_left]; [exact Hy|]. pose proof (collect_same b y need s Hy) as H. destruct (collect c (y, need) b) as [z n]. apply IH. exact H. }
  specialize (Hf keys y false Hy). destruct (fold_left (collect c) keys (y, false)) as [z n]. apply update_kept. exact Hf.
Qed.
Lemma set_top_same t g x s : same s x -> same s (set_top t g x).
Proof. intros H. destruct (set_top_is t g x) as [g' ->]. exact H. Qed.
Lemma mouse_kept m b i row can speed x s : same s x -> kept (mouse c m b i row can speed x) s.
Proof.
  intros H. unfold mouse. cbv zeta. match goal with |- context [t_bar ?y] => set (y0 := y) end.
  assert (Hy : same s y0) by (unfold y0; destruct m; [destruct (_ && _ && _)|destruct (_ && _ && _)|]; exact H). clearbody y0.
  assert (Hn : kept (finish c true (Some y0)) s) by (apply finish_kept; intros s' E; injection E as <-; exact Hy).
  destruct (t_bar y0). { destruct (hittest _ _ _); [|exact Logic.I]. apply navigated_kept, set_top_same. exact Hy. }
  match goal with |- kept (if ?y then _ else _) _ => destruct y; [exact Hy|] end. match goal with |- kept (if ?y then _ else _) _ => destruct y; [exact Hn|] end.
  match goal with |- kept (if ?y then _ else _) _ => destruct y end.
  - destruct m; try (apply navigated_kept; exact Hy). destruct (display c _) as [s2|] eqn:E; [|exact Logic.I]. apply choose_kept. eapply same_trans; [|apply display_same; exact E]. exact Hy.
  - destruct m; [exact Hn|exact Hn|]. destruct (negb can); [exact Hn|]. destruct (row <? 0).
    + destruct (0 <? t_top y0); [|exact Hn]. apply navigated_kept. exact (set_top_same _ _ _ _ Hy).
    + match goal with |- kept (if ?y then _ else _) _ => destruct y; [|exact Hn] end. apply navigated_kept. exact (set_top_same _ _ _ _ Hy).
Qed.
Lemma act_kept e k x s : same s x -> (forall ok, k <> k_delete ok) -> kept (act hit begins c e k x) s.
Proof.
  intros H Hk. assert (Hn : forall b, kept (finish c b (Some x)) s) by (intros; apply finish_kept; intros s' E; injection E as <-; exact H).
  assert (Hd : forall b (y : bool), kept (finish c b (if y then display c x else Some x)) s) by (intros b y; destruct y; [apply finish_display; exact H|apply Hn]).
  destruct k; cbn [act]; try (apply navigated_kept; exact H).
  - unfold page_up. cbv zeta. destruct (0 <? t_index x); [apply navigated_kept; exact H|apply Hn].
  - unfold page_down. cbv zeta. destruct (t_index x <? t_count x - 1); [|apply Hn]. apply navigated_kept. match goal with |- same _ (if ?b then _ else _) => destruct b end; [|exact H].
    match goal with |- same s (w_index ?i ?y) => change (same s y) end. apply set_top_same. exact H.
  - destruct (c_win c); [apply Hn|apply find_kept; exact H].
  - destruct (c_win c); [apply Hn|apply find_kept; exact H].
  - destruct (zth _ _); [exact H|exact Logic.I].
  - destruct (Hk _ eq_refl).
  - exact H.
  - destruct (_ || _); [apply Hn|apply choose_kept; exact H].
  - destruct (_ || _); [apply Hn|apply choose_kept; exact H].
  - apply mouse_kept. exact H.
  - destruct (c_win c); [destruct (_ || _); [apply Hn|apply choose_kept; exact H]|apply Hd].
  - apply Hd.
  - destruct (c_win c); [apply Hn|]. apply update_kept. destruct (t_filt x); [|exact H]. unfold clear_filter. destruct (is_nil (t_fstr x)); [exact H|].
    match goal with |- same s (w_filt _ ?y) => change (same s y) end. apply set_top_same. exact H.
  - apply Hn.
  - destruct (is_nil (t_needle x)); [apply Hn|]. apply update_kept. exact H.
  - apply text_kept. exact H.
Qed.
Lemma settle_same e k s m : settle hit begins c e k (w_ign false s) = Some m -> same s m.
Proof.
  assert (H : match t_pend (w_ign false s) with None => Some (w_ign false s) | Some (a, fb, adv) => match do_find hit begins c (e_busy e) a fb adv (w_pend None (w_ign false s)) with None => None | Some (s0, _) => display c s0 end end = Some m -> same s m).
  { destruct (t_pend (w_ign false s)) as [[[a fb] adv]|]; [|intros E; injection E as <-; unfold same; auto 10].
    destruct (do_find _ _ _ _ _ _ _ _) as [[y sh]|] eqn:Ed; [|discriminate]. apply do_find_same in Ed. intros E. eapply same_trans; [|apply display_same; exact E]. exact Ed. }
  unfold settle. destruct k; try exact H; intros E; injection E as <-; unfold same; auto 10.
Qed.
Lemma input_kept e k s : (forall ok, k <> k_delete ok) -> kept (on_input hit begins c e k s) s.
Proof.
  intros Hk. unfold on_input. destruct (c_vis c <=? 0); [apply same_refl|]. destruct (settle hit begins c e k (w_ign false s)) as [m|] eqn:E; [|exact Logic.I].
  apply act_kept; [|exact Hk]. eapply settle_same. exact E.
Qed.
End Paging.
