(** The popup lists (TlModel.v): what is claimed, for all lists of entries, settings, window heights and sequences of keys that
    are not among those known to do harm ([careful], TlSpec.v; what those do is in TlExamples.v).  The search is
    strstr_compare as modelled in TlMatch.v, for any case mapping. *)
From Verif Require Import Base SmallModel TlModel TlSpec TlProofs TlSteps TlInput TlMatch TlPaging TlFind.
From Coq Require Import Sorted.
Local Open Scope Z_scope.

Section Popup.
Variable lower : N -> N.
Variable mode : nat.
Variable fuzzy : bool.
Variable c : cfg.
Notation hit := (has lower mode fuzzy).
Notation begins := (starts lower mode fuzzy).
Notation reach := (reach hit begins whole c).
Notation on_input := (on_input hit begins c).
Notation careful := (careful hit begins whole c).
Notation shown := (shown hit).
Notation selected := (selected hit).
Notation inv := (inv hit c).

Lemma reached s d : reach s d -> inv s d.
Proof. apply reach_inv. apply has_more. Qed.
Lemma rows_of s d L : inv s d -> table s L -> TlSteps.data hit c s L.
Proof. intros ((_ & (L' & HL) & _) & _) HT. assert (L = L') as -> by (eapply table_unique; [exact HT|apply HL]). exact HL. Qed.
Lemma vis s d : inv s d -> 0 < c_vis c.
Proof. intros ((H & _) & _). exact H. Qed.

(** * C74 *)
Theorem popup_selection_valid s d : reach s d ->
  exists L, table s L /\ linked s L /\ t_count s = Z.of_nat (length (shown s L)) /\ valid c s.
Proof.
  intros H. apply reached in H. destruct H as ((_ & (L & HL) & _) & _ & Hv). exists L. pose proof HL as (T & K & _).
  split; [exact T|]. split; [exact K|]. split; [apply (shown_length hit c); exact HL|exact Hv].
Qed.
Theorem popup_no_bad_read s d e k : reach s d -> careful e k s d -> on_input e k s <> Undefined.
Proof. intros H Hc E. apply reached in H. pose proof (input_inv hit begins whole (has_more lower mode fuzzy) c e k s d H Hc) as Hi. rewrite E in Hi. exact Hi. Qed.

Theorem popup_arrows s d e : reach s d -> t_pend s = None -> 0 < t_count s ->
  (exists s', on_input e k_down s = Go s' /\ t_index s' = (if t_index s =? t_count s - 1 then (if c_wrap c then 0 else t_index s) else t_index s + 1) /\
     same s s' /\ t_fstr s' = t_fstr s) /\
  (exists s', on_input e k_up s = Go s' /\ t_index s' = (if t_index s =? 0 then (if c_wrap c then t_count s - 1 else 0) else t_index s - 1) /\
     same s s' /\ t_fstr s' = t_fstr s) /\
  (exists s', on_input e k_home s = Go s' /\ t_index s' = 0 /\ same s s' /\ t_fstr s' = t_fstr s) /\
  (exists s', on_input e k_end s = Go s' /\ t_index s' = t_count s - 1 /\ same s s' /\ t_fstr s' = t_fstr s).
Proof.
  intros H Hp Hc. apply reached in H. pose proof (vis _ _ H) as Hv. pose proof H as (_ & _ & (V & _)). replace (t_count s =? 0) with false in V by lia.
  assert (Hi : inv (w_ign false s) d) by exact H.
  assert (Mv : forall i j, i <= t_count s - 1 -> j = Z.max 0 i -> exists s', navigated c (w_index i (w_ign false s)) = Go s' /\ t_index s' = j /\ same s s' /\ t_fstr s' = t_fstr s).
  { intros i j Hij ->. destruct (moved_go hit c i _ d Hi) as (s' & E1 & _ & E2 & _ & E3 & _ & E4 & _); [cbn [t_count w_ign]; lia|]. exists s'. split; [exact E1|]. split; [exact E2|]. split; [exact E4|exact E3]. }
  rewrite !on_input_now by assumption. cbn [act t_index t_count w_ign].
  split; [|split; [|split]]; apply Mv.
  - destruct (t_count s <=? t_index s + 1) eqn:E; [destruct (c_wrap c)|]; lia.
  - destruct (t_count s <=? t_index s + 1) eqn:E; destruct (t_index s =? t_count s - 1) eqn:E2; try lia; destruct (c_wrap c); lia.
  - destruct (t_index s - 1 <? 0) eqn:E; [destruct (c_wrap c)|]; lia.
  - destruct (t_index s - 1 <? 0) eqn:E; destruct (t_index s =? 0) eqn:E2; try lia; destruct (c_wrap c); lia.
  - lia.
  - lia.
  - lia.
  - lia.
Qed.

(** A click on a row of the list selects the row that is shown there, and nothing moves under the mouse.  (m_scroll_bar_clicked
    is not reset when the list is closed; without scroll bars now it must not be set from before.) *)
Lemma click_shown x s d row s' : inv s d -> 0 <= row < Z.min (t_count s) (c_vis c) -> t_index x = row + t_top s -> t_top x = t_top s -> t_count x = t_count s ->
  (t_ign x = true \/ t_count s <= c_vis c) -> navigated c x = Go s' -> t_top s' = t_top s.
Proof.
  intros (_ & _ & (V1 & V2 & V3)) Hr X1 X2 X4 X3 E1. unfold navigated in E1. cbv zeta in E1. set (y := w_index _ _) in E1.
  assert (Ey : t_index y = row + t_top s /\ t_top y = t_top s /\ t_ign y = t_ign x /\ t_count y = t_count s).
  { unfold y. destruct (t_isnum x); cbn [t_index t_top t_ign t_count w_ign w_index w_bar w_title w_clr w_isnum w_nf w_needle]; rewrite X1; (split; [lia|auto]). }
  destruct Ey as (Y1 & Y2 & Y3 & Y4). clearbody y.
  assert (Eu : update_top c y = y).
  { unfold update_top, rows. rewrite Y1, Y2, Y4. replace (row + t_top s <? t_top s) with false by lia. cbv zeta.
    replace (t_top s <? Z.max 0 (row + t_top s - Z.max (Z.min (t_count s) (c_vis c) - 1) 0)) with false by lia. rewrite Y3.
    destruct X3 as [->|X3]; [reflexivity|]. destruct (negb (t_ign x)); [|reflexivity]. destruct (0 <? scroll_offset c); [|reflexivity]. rewrite Y2.
    replace (Z.max 0 (row + t_top s - scroll_offset c) <? t_top s) with false by lia.
    replace (t_top s <? Z.min (Z.max 0 (t_count s - Z.min (t_count s) (c_vis c))) (row + t_top s + scroll_offset c - Z.min (t_count s) (c_vis c) + 1)) with false by lia. reflexivity. }
  unfold display in E1. cbv zeta in E1. rewrite Eu in E1.
  destruct (((0 <? c_vis c) || _) && _); [destruct (forallb _ _); [|discriminate]|]; cbn [finish] in E1; destruct (true && negb (c_win c)); injection E1 as <-; exact Y2.
Qed.
Theorem popup_click s d e row can speed : reach s d -> t_pend s = None -> 0 <= row < Z.min (t_count s) (c_vis c) ->
  (t_bar s = false \/ c_bars c = true) ->
  exists s', on_input e (k_mouse left_click false true row can speed) s = Go s' /\ t_index s' = t_top s + row /\ t_top s' = t_top s /\ same s s' /\ t_fstr s' = t_fstr s.
Proof.
  intros H Hp Hr Hbar. apply reached in H. pose proof (vis _ _ H) as Hv. pose proof H as (Hb & Hty & (V1 & V2 & V3)). rewrite on_input_now by assumption.
  cbn [act]. unfold mouse. cbv zeta. match goal with |- context [t_bar ?x] => set (s0 := x) end.
  assert (Es0 : exists b, s0 = w_bar b (w_ign false s) /\ (b = false \/ t_count s <= c_vis c)).
  { unfold s0. cbn [andb w_ign t_count]. destruct (c_bars c && (0 <? c_vis c) && (c_vis c <? t_count s)) eqn:E; [exists false; auto|].
    exists (t_bar s). split; [destruct s; reflexivity|]. destruct Hbar as [Hb2|B1]; [left; exact Hb2|right]. rewrite B1 in E. cbn [andb] in E. lia. }
  destruct Es0 as (b & Es0 & Hb0). rewrite Es0. clear s0 Es0. cbn [t_bar w_bar]. unfold rows. cbn [t_count w_ign w_bar].
  pose proof Hb as (_ & (L & HL) & _). pose proof (count_le hit c _ _ HL) as Hle. pose proof HL as (_ & _ & _ & Hbig & _).
  assert (Fin : forall x, TlSteps.base hit c x d -> typed x -> same s x -> t_fstr x = t_fstr s -> t_index x = row + t_top s -> t_top x = t_top s -> t_count x = t_count s ->
      (t_ign x = true \/ t_count s <= c_vis c) ->
      exists s', navigated c x = Go s' /\ t_index s' = t_top s + row /\ t_top s' = t_top s /\ same s s' /\ t_fstr s' = t_fstr s).
  { intros x B1 B2 B3 B4 X1 X2 X4 X3. destruct (navigated_go hit c x d) as (s' & E1 & _ & E3 & _ & E5 & _ & E7 & _); [exact B1|exact B2|rewrite X2, X4; exact V2|rewrite X1, X4; lia|].
    exists s'. split; [exact E1|]. split; [rewrite E3, X1; lia|]. split; [exact (click_shown x s d row s' H Hr X1 X2 X4 X3 E1)|]. split; [eapply same_trans; eassumption|congruence]. }
  destruct b.
  - destruct Hb0 as [Hb0|Hb0]; [discriminate|]. replace (Z.min (t_count s) (c_vis c)) with (t_count s) in * by lia.
    assert (hittest (Z.min (Z.max row 0) (t_count s - 1)) (t_count s) (t_count s) = Some row) as ->.
    { replace (Z.min (Z.max row 0) (t_count s - 1)) with row by lia. unfold hittest. destruct (t_count s <=? 1) eqn:E1; cbn [orb]; [f_equal; lia|].
      unfold i32. replace ((-2147483648 <=? row * (t_count s - 1)) && (row * (t_count s - 1) <? 2147483648)) with true by nia.
      rewrite Z.quot_mul by lia. reflexivity. }
    cbn [t_top w_bar w_ign w_index].
    set (t := Z.min _ _). assert (Et : t = t_top s) by (unfold t; lia). unfold set_top. cbn [t_top w_bar w_ign w_index]. replace (t =? t_top s) with true by lia.
    apply Fin; [exact Hb|exact Hty|unfold same; cbn; auto|reflexivity|cbn [t_index w_index]; lia|reflexivity|reflexivity|right; exact Hb0].
  - replace ((row <? -1) || (Z.min (t_count s) (c_vis c) + 1 <=? row)) with false by lia. cbn [negb].
    replace ((0 <=? row) && (row <? Z.min (t_count s) (c_vis c))) with true by lia. cbn [t_top w_ign w_bar].
    apply Fin; [exact Hb|exact Hty|unfold same; cbn; auto|reflexivity|reflexivity|reflexivity|reflexivity|left; reflexivity].
Qed.

(** Page Up often enough goes to the first row, Page Down to the last. *)
Theorem popup_page_up s d e : reach s d -> t_pend s = None -> scroll_offset c < Z.min (t_count s) (c_vis c) ->
  exists n s', presses hit begins c n e k_pgup s = Go s' /\ t_index s' = 0 /\ t_count s' = t_count s.
Proof. intros H Hp Ho. apply reached in H. apply (page_up_begins hit begins c e d (S (Z.to_nat (t_index s)))); auto. lia. Qed.
Theorem popup_page_down s d e : reach s d -> t_pend s = None -> 0 < t_count s -> 2 * scroll_offset c <= t_count s ->
  exists n s', presses hit begins c n e k_pgdn s = Go s' /\ t_index s' = t_count s' - 1 /\ t_count s' = t_count s.
Proof. intros H Hp Hc Ho. apply reached in H. apply (page_down_ends hit begins c e d); auto. Qed.

(** * C75 *)
(** Enter and Insert return the row that is selected, though the list is filtered or entries have been deleted. *)
Theorem popup_choose s d e L r : reach s d -> t_pend s = None -> table s L -> selected s L = Some r ->
  exists o, zth L o = Some r /\
    on_input e k_enter s = Ended (Chosen true o (r_entry r)) (w_ign false s) /\ on_input e k_insert s = Ended (Chosen false o (r_entry r)) (w_ign false s).
Proof.
  intros H Hp HT Hs. apply reached in H. pose proof (vis _ _ H) as Hv. pose proof (rows_of _ _ _ H HT) as HL.
  destruct (place hit c _ _ _ _ HL Hs) as (o & Ho & Hr & _). exists o. split; [exact Hr|]. pose proof (zth_range _ _ _ Hs) as Hi. rewrite <- (shown_length hit c _ _ HL) in Hi.
  rewrite !on_input_now by assumption. cbn [act]. unfold choose. cbn [t_index t_count t_entries w_ign].
  replace ((t_index s <? 0) || (t_count s <=? t_index s)) with false by lia. replace ((0 <=? t_index s) && (t_index s <? t_count s)) with true by lia.
  change (original (w_ign false s) (t_index s)) with (original s (t_index s)). rewrite Ho.
  assert (zth (t_entries s) o = Some (r_entry r)) as ->; [|split; reflexivity].
  destruct HT as (_ & (rest & ->) & _). apply zth_app. rewrite zth_map, Hr. reflexivity.
Qed.

(** Delete takes the selected entry, and no other, out of the list and out of where the list comes from; the numbers of those
    behind it are one less.  The row behind it is selected then, or the one before it. *)
Theorem popup_delete s d e ok L r : reach s d -> t_pend s = None -> table s L -> selected s L = Some r ->
  (c_hist c = true \/ ((c_dirs c || c_callback c) && ok)%bool = true) -> (t_fstr s = [] \/ t_count s <> 1) ->
  exists s', on_input e (k_delete ok) s = (if (length L =? 1)%nat then Ended Cancelled s' else Go s') /\
    t_ext s' = remove_at (Z.to_nat (r_number r)) (t_ext s) /\ zth (t_ext s) (r_number r) = Some (r_entry r) /\
    table s' (without (r_number r) L) /\ linked s' (without (r_number r) L) /\ t_fstr s' = t_fstr s /\
    (length L <> 1%nat -> t_index s' = if c_up c then Z.max 0 (t_index s - 1) else Z.min (t_index s) (t_count s - 2)).
Proof.
  intros Hre Hpn HT Hr Hdel Hharm. pose proof (reached _ _ Hre) as Hi. pose proof (vis _ _ Hi) as Hv. pose proof (rows_of _ _ _ Hi HT) as HL.
  rewrite on_input_now by assumption. cbn [act]. set (s0 := w_ign false s).
  assert (Hi0 : inv s0 d) by exact Hi. assert (HL0 : TlSteps.data hit c s0 L) by exact HL. assert (Hr0 : TlSpec.selected hit s0 L = Some r) by exact Hr.
  change (t_ext s) with (t_ext s0). change (t_index s) with (t_index s0). change (t_count s) with (t_count s0). change (t_fstr s) with (t_fstr s0) in *. change (t_count s) with (t_count s0) in Hharm.
  change (t_pend s) with (t_pend s0) in Hpn. assert (HT0 : table s0 L) by exact HT. clearbody s0. clear s Hre HT Hi HL Hr.
  unfold delete. pose proof (zth_range _ _ _ Hr0) as Hix. rewrite <- (shown_length hit c _ _ HL0) in Hix.
  replace ((t_index s0 <? 0) || (t_count s0 <=? t_index s0)) with false by lia. pose proof Hi0 as (Hb & Hty & Hval).
  destruct (erased hit c s0 L r HL0 Hr0) as (o & E1 & E2 & H0 & Hent & T & K & X & F1 & F2). rewrite E1, E2.
  assert (negb (c_hist c) && negb ((c_dirs c || c_callback c) && ok) = false) as ->.
  { destruct Hdel as [->| ->]; [reflexivity|]. apply Bool.andb_false_r. }
  cbv zeta in T, K, X, F1, F2. cbv zeta. set (s1 := erase o (r_number r) s0) in *. pose proof (erase_keeps o (r_number r) s0) as K1. cbv zeta in K1. fold s1 in K1.
  destruct K1 as (K1 & K2 & K3 & K4 & K5 & K6 & K7 & K8 & K9 & K10 & K11 & K12 & _).
  assert (Hext : zth (t_ext s0) (r_number r) = Some (r_entry r)).
  { destruct (place hit c _ _ _ _ HL0 Hr0) as (o' & _ & Hr' & _). destruct HL0 as (_ & (HF & _) & _). rewrite Forall_forall in HF. apply HF.
    destruct (zth_split _ _ _ Hr') as (a & b & -> & _). apply in_or_app. right. left. reflexivity. }
  pose proof HT0 as (HT1 & _). destruct (t_ocount s1 =? 0) eqn:E4.
  { replace (length L =? 1)%nat with true by lia. exists s1. split; [reflexivity|]. split; [exact X|]. split; [exact Hext|]. split; [exact T|]. split; [exact K|]. split; [exact K2|]. lia. }
  replace (length L =? 1)%nat with false by lia. pose proof (count_le hit c _ _ HL0) as Hcl. pose proof HL0 as (_ & _ & Hop & Hbig & D1 & D2).
  assert (Hc1 : 0 < t_count s1) by (destruct Hharm as [E|E]; [destruct (F1 E); lia|lia]).
  assert (Hbase : TlSteps.base hit c s1 (negb (is_nil (t_fstr s0)))).
  { split; [exact Hv|]. split; [exists (without (r_number r) L)|split].
    - split; [exact T|]. split; [exact K|]. split; [lia|]. split; [nia|]. rewrite K2, K1. split; [exact F1|]. intros E. destruct (F2 E) as [G1 G2]. destruct (D2 E) as (_ & _ & G3 & G4). auto.
    - intros E Ed. rewrite K2 in E. apply is_nil_false in E. rewrite E in Ed. discriminate.
    - destruct Hb as (_ & _ & _ & (M1 & M2 & M3 & M4)). split; [rewrite K2, K8; exact M1|]. split; [rewrite K10; exact M2|]. split; [|rewrite K9; exact M4].
      intros E. rewrite K2, K7. destruct (is_nil (t_fstr s0)) eqn:En; [discriminate|]. apply is_nil_false in En. split; [exact En|]. exact (Hty En Hpn). }
  assert (exists i, move_index c s1 = w_index i s1 /\ i = if c_up c then Z.max 0 (t_index s0 - 1) else Z.min (t_index s0) (t_count s0 - 2)) as (i & Es2 & Hi2).
  { unfold move_index. rewrite K5. destruct (c_up c); [destruct (0 <? t_index s0) eqn:E|destruct (t_count s1 <=? t_index s0) eqn:E].
    - eexists. split; [reflexivity|lia].
    - exists (t_index s1). split; [destruct s1; reflexivity|lia].
    - eexists. split; [reflexivity|lia].
    - exists (t_index s1). split; [destruct s1; reflexivity|lia]. }
  rewrite Es2. destruct (keep_window_is c (w_ign false (w_index i s1))) as (t & g & -> & Ht). cbn [t_count w_ign w_index] in Ht. specialize (Ht Hv ltac:(lia)).
  set (s3 := w_ign g _).
  destruct (display_exact hit c s3 (negb (is_nil (t_fstr s0)))) as (s' & Hd & _ & D3 & _ & D5 & _ & _ & _ & _ & D10 & _).
  { exact Hbase. }
  { intros E _. change (t_needle s1 <> []). change (t_fstr s1 <> []) in E. rewrite K7. rewrite K2 in E. exact (Hty E Hpn). }
  { split; [exact Hv|]. split; [cbn [t_count s3 w_ign w_top w_index]; lia|]. split; [|exact Ht]. cbn [t_count t_index s3 w_ign w_top w_index]. replace (t_count s1 =? 0) with false by lia. destruct (c_up c); lia. }
  rewrite Hd. assert (S1 : same s1 s') by exact D10. cbn [t_index t_fstr s3 w_ign w_top w_index] in D3. change (t_fstr s3) with (t_fstr s1) in D5.
  assert (exists b, finish c true (Some s') = Go (w_clr b s')) as [b ->].
  { cbn [finish]. destruct (true && negb (c_win c)); [exists true; reflexivity|exists (t_clr s'); destruct s'; reflexivity]. }
  exists (w_clr b s'). split; [reflexivity|]. assert (S2 : same s1 (w_clr b s')) by exact S1.
  split; [destruct S2 as (_ & _ & _ & -> & _); exact X|]. split; [exact Hext|]. split; [exact (same_table _ _ _ S2 T)|]. split; [exact (same_linked _ _ _ S2 K)|].
  split; [cbn [t_fstr w_clr]; congruence|]. intros _. cbn [t_index w_clr]. congruence.
Qed.

(** No other key changes the entries, in the list or where they come from. *)
Theorem popup_only_delete s e k : (forall ok, k <> k_delete ok) ->
  match on_input e k s with Go s' | Ended _ s' => same s s' | Undefined => True end.
Proof. exact (input_kept hit begins c e k s). Qed.

(** Without a filter Ctrl+C copies the entry that is selected. *)
Theorem popup_copy s d e L r : reach s d -> t_pend s = None -> t_fstr s = [] -> table s L -> selected s L = Some r ->
  on_input e k_copy s = Go (w_clip (Some (r_entry r)) (w_ign false s)).
Proof.
  intros H Hp Hf HT Hr. apply reached in H. rewrite on_input_now by (try assumption; exact (vis _ _ H)). cbn [act t_entries t_index w_ign].
  unfold TlSpec.selected, TlSpec.shown in Hr. rewrite Hf in Hr. destruct HT as (_ & (rest & ->) & _).
  assert (zth (map r_entry L ++ rest) (t_index s) = Some (r_entry r)) as ->; [|reflexivity]. apply zth_app. rewrite zth_map, Hr. reflexivity.
Qed.

(** * C76 *)
(** While the filter is on, what is typed is added to the string and the rows shown are those that contain it, in their order. *)
Theorem popup_filter s d e keys L : reach s d -> (t_fstr s <> [] -> whole (t_fstr s)) -> c_win c = false -> t_filt s = true -> t_nf s = false ->
  e_queued e = false -> e_busy e = false -> table s L ->
  let needle := t_needle s ++ printable keys in
  exists s', on_input e (k_text keys) s = Go s' /\ table s' L /\ linked s' L /\
    shown s' L = (match needle with [] => L | _ => filter (fun r => has lower mode fuzzy needle (i_text (r_item r)) || existsb (has lower mode fuzzy needle) (i_cols (r_item r))) L end) /\
    t_count s' = Z.of_nat (length (shown s' L)) /\ valid c s'.
Proof.
  intros H Hw Hwin Hf Hn Hq Hbz HT needle. apply reached in H. pose proof (rows_of _ _ _ H HT) as HL.
  destruct (typed_filter hit begins whole (has_more lower mode fuzzy) c e keys s d H Hw Hwin Hf Hn Hq Hbz) as (s' & E1 & E2 & E3 & E4 & E5).
  exists s'. split; [exact E1|]. assert (HT' : table s' L) by (eapply same_table; eassumption). split; [exact HT'|]. split; [apply (same_linked s s'); [exact E4|apply HL]|].
  split; [|split; [apply (shown_length hit c), (rows_of s' d); assumption|apply E5]].
  unfold TlSpec.shown. rewrite E2. fold needle. destruct needle; reflexivity.
Qed.

(** Without the filter, what is typed selects the next row that contains it, beginning with the one selected and going round;
    F3 and Shift+F3 (Ctrl+L and so on) the next and the one before.  If there is none the selection stays. *)
Theorem popup_type_find s d e keys L : reach s d -> table s L -> c_win c = false -> t_filt s = false -> (t_clr s = true \/ t_nf s = false) -> e_queued e = false ->
  let needle := (if t_clr s then [] else t_needle s) ++ printable keys in
  exists s', on_input e (k_text keys) s = Go s' /\ t_needle s' = needle /\ same s s' /\ t_fstr s' = [] /\
   ((exists p, first_match hit needle L (t_index s) (if c_reverse c then -1 else 1) 0 (Some p) /\ t_index s' = p) \/
    (first_match hit needle L (t_index s) (if c_reverse c then -1 else 1) 0 None /\ t_index s' = t_index s)).
Proof.
  intros H HT Hw Hf Hc Hq needle. apply reached in H.
  destruct (typed_find hit begins whole (has_more lower mode fuzzy) c e keys s d L H HT Hw Hf Hc Hq) as (s' & E1 & E2 & E3 & E4 & [(p & P1 & P2 & _)|(P1 & P2 & _)]);
    exists s'; (split; [exact E1|]); (split; [exact E2|]); (split; [exact E3|]); (split; [exact E4|]); [left|right; auto].
  exists p. auto.
Qed.
Theorem popup_find_next s d e (back : bool) L : reach s d -> table s L -> t_pend s = None -> c_win c = false -> t_filt s = false -> t_nf s = false ->
  let dir := if Bool.eqb back (c_reverse c) then 1 else -1 in
  exists s', on_input e (if back then k_findprev else k_findnext) s = Go s' /\ t_needle s' = t_needle s /\ same s s' /\
   ((exists p, first_match hit (t_needle s) L (t_index s) dir 1 (Some p) /\ t_index s' = p) \/
    (first_match hit (t_needle s) L (t_index s) dir 1 None /\ t_index s' = t_index s)).
Proof.
  intros H HT Hp Hw Hf Hn dir. apply reached in H.
  destruct (find_key hit begins c e (if back then -1 else 1) s d L H HT Hp Hw Hf Hn ltac:(destruct back; auto)) as (s' & E1 & E2 & E3 & E4).
  assert (Ed : (if c_reverse c then 0 - (if back then -1 else 1) else (if back then -1 else 1)) = dir) by (unfold dir; destruct back, (c_reverse c); reflexivity). rewrite Ed in E4.
  exists s'. split; [destruct back; exact E1|]. split; [exact E2|]. split; [exact E3|]. destruct E4 as [(p & P1 & P2 & _)|(P1 & P2 & _)]; [left; exists p|right]; auto.
Qed.

(** In the list of F7 the digits of a number select the first entry the number of which begins with them. *)
Theorem popup_number s d e (n : N) L l : reach s d -> table s L -> c_win c = true -> t_infos s = Some l -> t_isnum s = false -> (n < 1000000)%N ->
  exists s', on_input e (k_text (dec n)) s = Go s' /\ same s s' /\
    ((exists r, zth L (t_index s') = Some r /\ prefixb (dec n) (dec (Z.to_N (r_number r + 1))) = true /\
        forall k r', k < t_index s' -> zth L k = Some r' -> prefixb (dec n) (dec (Z.to_N (r_number r' + 1))) = false) \/
     ((forall k r', zth L k = Some r' -> prefixb (dec n) (dec (Z.to_N (r_number r' + 1))) = false) /\ t_index s' = t_index s)).
Proof.
  intros H HT Hw Hl Hn Hlen. apply reached in H. apply (typed_number hit begins whole (has_more lower mode fuzzy) c e (dec n) s d L l); auto.
  - apply dec_nonnil.
  - apply dec_digits.
  - apply dec_len; [exact Hlen|lia].
  - rewrite undec_dec. reflexivity.
Qed.
End Popup.

Print Assumptions popup_selection_valid.
Print Assumptions popup_no_bad_read.
Print Assumptions popup_arrows.
Print Assumptions popup_click.
Print Assumptions popup_page_up.
Print Assumptions popup_page_down.
Print Assumptions popup_choose.
Print Assumptions popup_delete.
Print Assumptions popup_only_delete.
Print Assumptions popup_copy.
Print Assumptions popup_filter.
Print Assumptions popup_type_find.
Print Assumptions popup_find_next.
Print Assumptions popup_number.
