(** Proofs about the popup lists: the keys. *)
From Verif Require Import Base SmallModel TlModel TlSpec TlProofs TlSteps.
From Coq Require Import Sorted.
Local Open Scope Z_scope.

Lemma hit_row r rows total : 0 <= r < rows -> 1 <= rows <= total -> total * rows < 2147483648 ->
  exists i, hittest r rows total = Some i /\ 0 <= i < total.
Proof.
  intros Hr Hn Ho. unfold hittest. destruct ((rows <=? 1) || (total <=? 1)) eqn:E; [exists 0; split; [reflexivity|lia]|].
  assert (0 <= r * (total - 1) <= (rows - 1) * (total - 1)) as H1 by nia. assert ((rows - 1) * (total - 1) < 2147483648) as H2 by nia.
  unfold i32. replace ((-2147483648 <=? r * (total - 1)) && (r * (total - 1) <? 2147483648)) with true by lia.
  eexists. split; [reflexivity|]. rewrite Z.quot_div_nonneg by lia. split; [apply Z.div_pos; lia|].
  apply Z.lt_le_trans with ((total - 1) + 1); [|lia]. apply Z.lt_succ_r. rewrite Z.mul_comm in H1. apply Z.div_le_upper_bound; [lia|]. lia.
Qed.

(** ** Deleting a row *)
Lemma sorted_split (L1 L2 : list row) r : StronglySorted (fun a b => r_number a < r_number b) (L1 ++ r :: L2) ->
  Forall (fun x => r_number x < r_number r) L1 /\ Forall (fun x => r_number r < r_number x) L2.
Proof.
  induction L1 as [|x L1 IH]; intros H; cbn [app] in H; apply StronglySorted_inv in H; destruct H as [H1 H2].
  - split; [constructor|exact H2].
  - destruct (IH H1) as [A B]. split; [|exact B]. constructor; [|exact A]. rewrite Forall_forall in H2. apply H2. apply in_or_app. right. left. reflexivity.
Qed.
Definition down (r : row) : row := mkRow (r_entry r) (r_item r) (r_number r - 1).
Lemma without_split (L1 L2 : list row) r : StronglySorted (fun a b => r_number a < r_number b) (L1 ++ r :: L2) ->
  without (r_number r) (L1 ++ r :: L2) = L1 ++ map down L2.
Proof.
  intros H. destruct (sorted_split _ _ _ H) as [A B]. unfold without. rewrite filter_app. cbn [filter]. rewrite Z.eqb_refl. cbn [negb].
  rewrite map_app. f_equal.
  - clear B H. induction A as [|x L1 Hx A IH]; cbn [filter map]; [reflexivity|]. replace (r_number x =? r_number r) with false by lia. cbn [negb map].
    rewrite IH. f_equal. replace (r_number r <? r_number x) with false by lia. destruct x; reflexivity.
  - clear A H. induction B as [|x L2 Hx B IH]; cbn [filter map]; [reflexivity|]. replace (r_number x =? r_number r) with false by lia. cbn [negb map].
    rewrite IH. f_equal. replace (r_number r <? r_number x) with true by lia. reflexivity.
Qed.
Lemma map_down_number L : map r_number (map down L) = map (fun x => x - 1) (map r_number L).
Proof. rewrite !map_map. reflexivity. Qed.
Lemma remove_zth {A} (l : list A) n i : 0 <= n -> 0 <= i -> zth (remove_at (Z.to_nat n) l) i = zth l (if i <? n then i else i + 1).
Proof.
  intros Hn Hi. unfold zth, remove_at. replace (i <? 0) with false by lia. replace ((if i <? n then i else i + 1) <? 0) with false by (destruct (i <? n); lia).
  destruct (i <? n) eqn:E.
  - destruct (Nat.lt_ge_cases (Z.to_nat i) (length l)) as [Hl|Hl].
    + rewrite nth_error_app1 by (rewrite firstn_length; lia). rewrite <- (firstn_skipn (Z.to_nat n) l) at 2. rewrite nth_error_app1 by (rewrite firstn_length; lia). reflexivity.
    + rewrite (proj2 (nth_error_None l _)) by lia. apply nth_error_None. rewrite app_length, firstn_length, skipn_length. lia.
  - destruct (Nat.le_gt_cases (length l) (Z.to_nat n)) as [Hl|Hl].
    + rewrite (proj2 (nth_error_None l _)) by lia. apply nth_error_None. rewrite app_length, firstn_length, skipn_length. lia.
    + rewrite nth_error_app2 by (rewrite firstn_length; lia). rewrite firstn_length. replace (Nat.min (Z.to_nat n) (length l)) with (Z.to_nat n) by lia.
      rewrite <- (firstn_skipn (S (Z.to_nat n)) l) at 2. rewrite nth_error_app2 by (rewrite firstn_length; lia). f_equal. rewrite firstn_length. lia.
Qed.
Lemma linked_without s ext' L1 r L2 : linked s (L1 ++ r :: L2) -> ext' = remove_at (Z.to_nat (r_number r)) (t_ext s) ->
  linked (w_ext ext' s) (L1 ++ map down L2).
Proof.
  intros [H1 H2] ->. destruct (sorted_split _ _ _ H2) as [A B]. apply Forall_app in H1. destruct H1 as [F1 F2]. inversion F2 as [|? ? [Hr _] F3]; subst.
  split.
  - apply Forall_app. split.
    + rewrite Forall_forall in *. intros x Hx. destruct (F1 x Hx) as [G1 G2]. specialize (A x Hx). cbn beta in A. split; [exact G1|]. cbn [t_ext w_ext].
      rewrite remove_zth by lia. replace (r_number x <? r_number r) with true by lia. exact G2.
    + apply Forall_map. rewrite Forall_forall in *. intros x Hx. destruct (F3 x Hx) as [G1 G2]. specialize (B x Hx). cbn beta in B. cbn [down r_number r_entry t_ext w_ext].
      split; [lia|]. rewrite remove_zth by lia. replace (r_number x - 1 <? r_number r) with false by lia. replace (r_number x - 1 + 1) with (r_number x) by lia. exact G2.
  - clear F1 F2 F3. induction L1 as [|x L1 IH]; cbn [app] in *.
    + apply StronglySorted_inv in H2. destruct H2 as [H2 _]. clear A B. induction H2 as [|y L2 Hs IH Hf]; cbn [map]; constructor; [exact IH|].
      apply Forall_map. eapply Forall_impl; [|exact Hf]. intros z Hz. cbn beta in Hz. cbn [down r_number]. lia.
    + apply StronglySorted_inv in H2. destruct H2 as [H2 H3]. inversion A as [|? ? Ax A']; subst. constructor; [apply IH; auto|].
      apply Forall_app in H3. destruct H3 as [G1 G2]. inversion G2 as [|? ? G3 G4]; subst. apply Forall_app. split; [exact G1|]. apply Forall_map. rewrite Forall_forall in *.
      intros z Hz. specialize (B z Hz). specialize (G4 z Hz). cbn beta in B, G4. cbn [down r_number]. lia.
Qed.
Lemma linked_ext s s' L : t_ext s = t_ext s' -> linked s L -> linked s' L.
Proof. unfold linked. intros ->. auto. Qed.

Lemma move_at {A} (a b r : list A) x n k : n = length (a ++ x :: b) -> k = length a -> exists r', move_down n k ((a ++ x :: b) ++ r) = (a ++ b) ++ r'.
Proof. intros -> ->. apply move_mid. Qed.
Lemma remove_at_mid {A} (a b : list A) x k : k = length a -> remove_at k (a ++ x :: b) = a ++ b.
Proof. intros ->. apply remove_mid. Qed.
Lemma decrement_at a b r lo hi : lo = length a -> (hi = length a + length b)%nat -> decrement lo hi 0 ((a ++ b) ++ r) = (a ++ map (fun x => x - 1) b) ++ r.
Proof. intros ->. apply decrement_parts. Qed.

Section Input.
Variable hit : bytes -> bytes -> bool.
Variable c : cfg.
Notation data := (data hit c). Notation inv := (inv hit c). Notation base := (base hit c). Notation shown := (shown hit).

Lemma zseq_split n m : forall i, map r_number (n ++ m) = zseq i (length (n ++ m)) -> map r_number n = zseq i (length n) /\ map r_number m = zseq (i + Z.of_nat (length n)) (length m).
Proof.
  induction n as [|x n IH]; intros i H; cbn [app map length zseq] in *; [rewrite Z.add_0_r; auto|]. injection H as H1 H2. destruct (IH _ H2) as [A B].
  split; [f_equal; auto|]. rewrite B. f_equal. lia.
Qed.

Lemma table_erase s L1 r L2 : table s (L1 ++ r :: L2) ->
  (match t_infos s with Some l => zth l (Z.of_nat (length L1)) | None => Some (Z.of_nat (length L1)) end) = Some (r_number r) /\
  forall x, 0 <= r_number r -> table (erase (Z.of_nat (length L1)) x s) (L1 ++ map down L2).
Proof.
  intros (T1 & (rest & T2) & T3 & T4). split.
  - destruct (t_infos s) as [l|].
    + destruct T4 as [rest2 ->]. apply zth_app. rewrite zth_map, zth_mid. reflexivity.
    + apply zseq_split in T4. destruct T4 as [_ T4]. cbn [map length zseq] in T4. injection T4 as T4 _. rewrite T4. reflexivity.
  - intros x Hr. unfold erase. rewrite Nat2Z.id, T1, Nat2Z.id. cbv zeta. set (sx := if x <? 0 then s else _).
    assert (Hn : length (map r_entry L1 ++ r_entry r :: map r_entry L2) = length (L1 ++ r :: L2)) by (rewrite !app_length; cbn [length]; rewrite !map_length; reflexivity).
    assert (Hn2 : length (map r_number L1 ++ r_number r :: map r_number L2) = length (L1 ++ r :: L2)) by (rewrite !app_length; cbn [length]; rewrite !map_length; reflexivity).
    split; [|split; [|split]].
    + cbn [t_ocount w_ocount]. rewrite !app_length, map_length. cbn [length]. lia.
    + assert (exists rest', move_down (length (L1 ++ r :: L2)) (length L1) (t_entries s) = map r_entry (L1 ++ map down L2) ++ rest') as [rest' E].
      { rewrite T2, !map_app. cbn [map]. destruct (move_at (map r_entry L1) (map r_entry L2) rest (r_entry r) (length (L1 ++ r :: L2)) (length L1) (eq_sym Hn) (eq_sym (map_length _ _))) as [rest' ->]. exists rest'. rewrite map_map. reflexivity. }
      exists rest'. destruct (t_infos s); destruct (is_nil (t_fitems s)); exact E.
    + assert (remove_at (length L1) (t_items s) = map r_item (L1 ++ map down L2)) as E.
      { rewrite T3, !map_app. cbn [map]. rewrite (remove_at_mid _ _ _ _ (eq_sym (map_length _ _))), map_map. reflexivity. }
      destruct (t_infos s); destruct (is_nil (t_fitems s)); exact E.
    + assert (Hinf : t_infos (if is_nil (t_fitems s) then w_items (remove_at (length L1) (t_items s)) (w_entries (move_down (length (L1 ++ r :: L2)) (length L1) (t_entries s)) sx) else s) = t_infos s).
      { unfold sx. destruct (is_nil (t_fitems s)); [|reflexivity]. destruct (x <? 0); reflexivity. }
      destruct (t_infos s) as [l|] eqn:Ei.
      * destruct T4 as [rest2 ->].
        assert (exists rest', decrement (length L1) (length (L1 ++ r :: L2) - 1) 0 (move_down (length (L1 ++ r :: L2)) (length L1) (map r_number (L1 ++ r :: L2) ++ rest2)) = map r_number (L1 ++ map down L2) ++ rest') as [rest' E].
        { rewrite !map_app, map_down_number. cbn [map]. destruct (move_at (map r_number L1) (map r_number L2) rest2 (r_number r) (length (L1 ++ r :: L2)) (length L1) (eq_sym Hn2) (eq_sym (map_length _ _))) as [rest' ->].
          exists rest'. apply decrement_at; [symmetry; apply map_length|]. rewrite app_length. cbn [length]. rewrite !map_length. lia. }
        destruct (is_nil (t_fitems s)); exists rest'; exact E.
      * assert (map r_number (L1 ++ map down L2) = zseq 0 (length (L1 ++ map down L2))) as E.
        { apply zseq_split in T4. destruct T4 as [A B]. cbn [map length zseq] in B. injection B as _ B. rewrite map_app, map_down_number, app_length, map_length, A, B, zseq_app.
          f_equal. rewrite zseq_shift. f_equal. }
        unfold sx. destruct (is_nil (t_fitems s)); destruct (x <? 0); cbn [t_infos w_ocount w_count w_items w_entries w_ext w_fitems]; rewrite Ei; exact E.
Qed.
Lemma erase_keeps o x s : let s' := erase o x s in
  t_filt s' = t_filt s /\ t_fstr s' = t_fstr s /\ t_sidx s' = t_sidx s /\ t_stop s' = t_stop s /\ t_index s' = t_index s /\ t_top s' = t_top s /\
  t_needle s' = t_needle s /\ t_nf s' = t_nf s /\ t_isnum s' = t_isnum s /\ t_pend s' = t_pend s /\ t_count s' = t_count s - 1 /\ t_ocount s' = t_ocount s - 1 /\
  t_ext s' = (if x <? 0 then t_ext s else remove_at (Z.to_nat x) (t_ext s)) /\ t_items s' = remove_at (Z.to_nat o) (t_items s) /\
  t_fitems s' = if is_nil (t_fitems s) then t_fitems s else decrement (Z.to_nat (t_index s)) (Z.to_nat (t_count s - 1)) 0 (remove_at (Z.to_nat (t_index s)) (t_fitems s)).
Proof.
  cbv zeta. unfold erase. cbv zeta. destruct (x <? 0); destruct (t_infos s); destruct (is_nil (t_fitems s)) eqn:E; cbn; rewrite ?E; repeat split; reflexivity.
Qed.

Lemma erased s L r : data s L -> selected hit s L = Some r -> exists o,
  original s (t_index s) = Some o /\ (match t_infos s with Some l => zth l o | None => Some o end) = Some (r_number r) /\ 0 <= r_number r /\
  zth (t_entries s) o = Some (r_entry r) /\
  let s1 := erase o (r_number r) s in
  table s1 (without (r_number r) L) /\ linked s1 (without (r_number r) L) /\ t_ext s1 = remove_at (Z.to_nat (r_number r)) (t_ext s) /\
  (t_fstr s = [] -> t_fitems s1 = [] /\ t_count s1 = t_ocount s1) /\
  (t_fstr s <> [] -> t_fitems s1 = positions hit (t_fstr s) (t_items s1) 0 /\ t_count s1 = Z.of_nat (length (t_fitems s1))).
Proof.
  intros HL Hsel. unfold selected in Hsel. destruct (place hit c _ _ _ _ HL Hsel) as (o & Ho & Hr & _). exists o.
  destruct (zth_split _ _ _ Hr) as (L1 & L2 & -> & ->). pose proof HL as (HT & HK & Hpos & _ & D1 & D2).
  destruct (table_erase _ _ _ _ HT) as [A B]. assert (H0 : 0 <= r_number r).
  { destruct HK as [HK _]. rewrite Forall_forall in HK. apply HK. apply in_or_app. right. left. reflexivity. }
  split; [exact Ho|]. split; [exact A|]. split; [exact H0|]. split.
  { destruct HT as (_ & (rest & ->) & _). apply zth_app. rewrite zth_map, zth_mid. reflexivity. }
  cbv zeta. rewrite without_split by apply HK. destruct (erase_keeps (Z.of_nat (length L1)) (r_number r) s) as (_ & E2 & _ & _ & _ & _ & _ & _ & _ & _ & E11 & E12 & E13 & E14 & E15).
  replace (r_number r <? 0) with false in E13 by lia. split; [apply B; exact H0|]. split.
  { apply linked_ext with (s := w_ext (remove_at (Z.to_nat (r_number r)) (t_ext s)) s); [rewrite E13; reflexivity|]. eapply linked_without; [exact HK|reflexivity]. }
  split; [exact E13|]. split.
  - intros E. destruct (D1 E) as [F1 F2]. rewrite E15, E11, E12, F1, F2. split; reflexivity.
  - intros E. destruct (D2 E) as (F1 & F2 & _). unfold original in Ho. pose proof (proj2 (is_nil_false (t_fstr s)) E) as E'. rewrite E' in Ho. rewrite F1 in Ho.
    assert (Hne : is_nil (t_fitems s) = false). { rewrite F1. destruct (positions hit (t_fstr s) (t_items s) 0); [|reflexivity]. unfold zth in Ho. destruct (_ <? 0); [discriminate|]. destruct (Z.to_nat _); discriminate. }
    rewrite Hne in E15. pose proof (positions_remove _ _ _ _ _ Ho) as Hrem. rewrite F1 in E15 at 1. rewrite F2, F1 in E15.
    replace (Z.to_nat (Z.of_nat (length (positions hit (t_fstr s) (t_items s) 0)) - 1)) with (length (positions hit (t_fstr s) (t_items s) 0) - 1)%nat in E15 by lia.
    rewrite <- Hrem in E15. rewrite E15, E14. split; [reflexivity|]. rewrite E11, F2, F1.
    assert (Hl : length (positions hit (t_fstr s) (remove_at (Z.to_nat (Z.of_nat (length L1))) (t_items s)) 0) = (length (positions hit (t_fstr s) (t_items s) 0) - 1)%nat).
    { rewrite Hrem. pose proof (zth_range _ _ _ Ho) as Hz. set (P := positions hit (t_fstr s) (t_items s) 0) in *. clearbody P.
      assert (forall l lo hi i, length (decrement lo hi i l) = length l) as Hd by (induction l as [|y l IH]; intros; cbn [decrement length]; [reflexivity|rewrite IH; reflexivity]).
      rewrite Hd. unfold remove_at. rewrite app_length, firstn_length, skipn_length. lia. }
    rewrite Hl. pose proof (zth_range _ _ _ Ho) as Hz. lia.
Qed.

Definition fine (o : outcome) (s : st) (d : bool) : Prop :=
  match o with Undefined => False | Ended _ _ => True | Go s' => inv s' d /\ t_ocount s' = t_ocount s end.
Lemma finish_fine b x s d : inv x d -> t_ocount x = t_ocount s -> fine (finish c b (Some x)) s d.
Proof. intros H E. cbn [finish]. destruct (b && negb (c_win c)); split; auto. Qed.
Lemma count_nonneg s d : base s d -> 0 <= t_count s.
Proof. intros (_ & (L & HL) & _). apply (count_le hit c _ _ HL). Qed.
Lemma inv_inside s d : inv s d -> inside c s.
Proof. intros (Hb & _ & Hv). apply valid_inside; [apply Hb|apply (count_nonneg s d Hb)|exact Hv]. Qed.
Lemma display_fine b x s d : base x d -> typed x -> inside c x -> t_ocount x = t_ocount s -> fine (finish c b (display c x)) s d.
Proof.
  intros Hb Ht Hin E. destruct (display_inv hit c x d Hb Ht Hin) as (t & g & y & -> & Hi). apply finish_fine; [exact Hi|exact E].
Qed.
Lemma redisplay_fine b x s d : inv x d -> t_ocount x = t_ocount s -> fine (finish c b (display c x)) s d.
Proof. intros H E. apply display_fine; [apply H|apply H|apply (inv_inside _ d H)|exact E]. Qed.

(** A row of the table: the selection is one if any is shown. *)
Lemma selected_some s L : data s L -> 0 <= t_index s < t_count s -> exists r, selected hit s L = Some r.
Proof. intros HL Hi. rewrite (shown_length hit c _ _ HL) in Hi. apply zth_some. exact Hi. Qed.

Lemma keep_window_is s : exists t g, keep_window c s = w_ign g (w_top t s) /\ (0 < c_vis c -> 0 <= t_count s -> 0 <= t <= Z.max 0 (t_count s - c_vis c)).
Proof.
  unfold keep_window. cbv zeta. match goal with |- context [set_top ?t ?g s] => destruct (set_top_is t g s) as [g' ->]; exists t, g' end. split; [reflexivity|]. lia.
Qed.
Lemma without_length s L x : linked s L -> (length (without x L) <= length L)%nat.
Proof. intros _. unfold without. rewrite map_length. apply filter_length_le. Qed.

(** ** Delete *)
Definition deletes (okk : bool) : bool := c_hist c || (c_dirs c || c_callback c) && okk.
Lemma delete_fine s d okk : inv s d -> t_pend s = None -> (t_fstr s = [] \/ t_count s <> 1) ->
  match delete c okk s with
  | Undefined => False
  | Ended r _ => r = Cancelled
  | Go s' => inv s' (negb (is_nil (t_fstr s')) && (d || (t_ocount s' <? t_ocount s))) /\ t_fstr s' = t_fstr s /\
      (t_ocount s' = t_ocount s \/ t_ocount s' = t_ocount s - 1)
  end.
Proof.
  intros Hi Hpn Hharm. unfold delete. destruct ((t_index s <? 0) || (t_count s <=? t_index s)) eqn:E0.
  { cbn [finish]. destruct (true && negb (c_win c)); cbn [t_fstr t_ocount w_clr]; rewrite Z.ltb_irrefl, Bool.orb_false_r; (split; [apply inv_flag in Hi; exact Hi|split; auto]). }
  pose proof Hi as (Hb & Hty & Hval). pose proof Hb as (Hv & (L & HL) & Hs & Hm). destruct (selected_some s L HL ltac:(lia)) as [r Hr].
  destruct (erased s L r HL Hr) as (o & E1 & E2 & H0 & _ & T & K & X & F1 & F2). rewrite E1, E2.
  destruct (negb (c_hist c) && negb ((c_dirs c || c_callback c) && okk)) eqn:E3.
  { cbn [finish]. destruct (true && negb (c_win c)); cbn [t_fstr t_ocount w_clr]; rewrite Z.ltb_irrefl, Bool.orb_false_r; (split; [apply inv_flag in Hi; exact Hi|split; auto]). }
  cbv zeta. set (s1 := erase o (r_number r) s) in *. pose proof (erase_keeps o (r_number r) s) as K1. cbv zeta in K1. fold s1 in K1.
  destruct K1 as (K1 & K2 & K3 & K4 & K5 & K6 & K7 & K8 & K9 & K10 & K11 & K12 & _). destruct (t_ocount s1 =? 0) eqn:E4; [reflexivity|].
  pose proof (count_le hit c _ _ HL) as Hcl. pose proof HL as (_ & _ & Hop & Hbig & D1 & D2).
  assert (Hc1 : 0 <= t_count s1) by lia.
  assert (Hbase : base s1 (negb (is_nil (t_fstr s)))).
  { split; [exact Hv|]. split; [exists (without (r_number r) L)|split].
    - split; [exact T|]. split; [exact K|]. split; [lia|]. split; [nia|]. rewrite K2, K1. split; [exact F1|]. intros E. destruct (F2 E) as [G1 G2]. destruct (D2 E) as (_ & _ & G3 & G4). auto.
    - intros E Ed. rewrite K2 in E. apply is_nil_false in E. rewrite E in Ed. discriminate.
    - destruct Hm as (M1 & M2 & M3 & M4). split; [rewrite K2, K8; exact M1|]. split; [rewrite K10; exact M2|]. split; [|rewrite K9; exact M4].
      intros E. rewrite K2, K7. destruct (is_nil (t_fstr s)) eqn:En; [discriminate|]. apply is_nil_false in En. split; [exact En|]. exact (Hty En Hpn). }
  set (s2 := move_index c s1).
  assert (exists i, s2 = w_index i s1 /\ (if t_count s1 =? 0 then i = 0 else 0 <= i < t_count s1)) as (i & Es2 & Hix).
  { unfold s2, move_index. rewrite K5. assert (Hne : t_count s1 <> 0).
    { destruct Hharm as [E|E]; [|lia]. destruct (F1 E) as [_ G]. lia. }
    replace (t_count s1 =? 0) with false by lia. destruct Hval as (V1 & _). replace (t_count s =? 0) with false in V1 by lia.
    destruct (c_up c); [destruct (0 <? t_index s) eqn:E|destruct (t_count s1 <=? t_index s) eqn:E].
    - eexists. split; [reflexivity|lia].
    - exists (t_index s1). split; [destruct s1; reflexivity|lia].
    - eexists. split; [reflexivity|lia].
    - exists (t_index s1). split; [destruct s1; reflexivity|lia]. }
  destruct (keep_window_is (w_ign false s2)) as (t & g & -> & Ht). rewrite Es2 in *. cbn [t_count w_ign w_index] in Ht. specialize (Ht Hv Hc1).
  match goal with |- match finish _ _ (display c ?x) with _ => _ end => set (s3 := x) end.
  destruct (display_inv hit c s3 (negb (is_nil (t_fstr s)))) as (t' & g' & y & Hd & Hinv).
  { exact Hbase. }
  { intros E _. change (t_needle s1 <> []). change (t_fstr s1 <> []) in E. rewrite K7. rewrite K2 in E. exact (Hty E Hpn). }
  { split; [exact Hv|]. split; [exact Hc1|]. split; [exact Hix|exact Ht]. }
  rewrite Hd. assert (Hfl : negb (is_nil (t_fstr s1)) && (d || (t_ocount s1 <? t_ocount s)) = negb (is_nil (t_fstr s))).
  { rewrite K2. replace (t_ocount s1 <? t_ocount s) with true by lia. rewrite Bool.orb_true_r. apply Bool.andb_true_r. }
  cbn [finish]. destruct (true && negb (c_win c)); cbn [t_fstr t_ocount w_clr w_shown_title w_ign w_top s3 w_index]; (rewrite Hfl; split; [exact Hinv|split; [exact K2|right; exact K12]]).
Qed.

(** ** The other keys *)
Lemma base_top t s d : base s d -> base (w_top t s) d.
Proof. exact (fun H => H). Qed.
Lemma win_plain s d : base s d -> c_win c = true -> t_fstr s = [] /\ d = false.
Proof.
  intros (_ & (L & HL) & _ & Hm) Hw. destruct HL as (_ & _ & _ & _ & _ & D2). destruct (t_fstr s) as [|b f] eqn:E.
  - split; [reflexivity|]. destruct d; [|reflexivity]. destruct Hm as (_ & _ & M & _). destruct (M eq_refl) as [M1 _]. rewrite E in M1. destruct (M1 eq_refl).
  - destruct (D2 ltac:(discriminate)) as (_ & _ & _ & H). congruence.
Qed.
Lemma navigated_fine x s d : base x d -> typed x -> 0 <= t_top x <= Z.max 0 (t_count x - c_vis c) -> t_index x <= Z.max 0 (t_count x - 1) ->
  t_ocount x = t_ocount s -> fine (navigated c x) s d.
Proof.
  intros Hb Hty Ht Hi E. pose proof (count_nonneg _ _ Hb) as Hc. unfold navigated. cbv zeta. destruct (t_isnum x) eqn:En.
  - pose proof Hb as (Hv & HL & Hs & (M1 & M2 & M3 & M4)). destruct (win_plain _ _ Hb (M4 En)) as [Hf ->]. apply display_fine.
    + split; [exact Hv|]. split; [exact HL|]. split; [exact Hs|]. split; [reflexivity|]. split; [exact M2|]. split; intros; discriminate.
    + intros H. destruct (H Hf).
    + split; [exact Hv|]. split; [exact Hc|]. cbn [t_count t_index t_top w_index w_title w_clr w_isnum w_nf w_needle]. split; [|exact Ht]. destruct (t_count x =? 0) eqn:E0; lia.
    + exact E.
  - apply display_fine; [exact Hb|exact Hty| |exact E]. split; [apply Hb|]. split; [exact Hc|]. cbn [t_count t_index t_top w_index]. split; [|exact Ht]. destruct (t_count x =? 0) eqn:E0; lia.
Qed.
Lemma valid_index s : valid c s -> 0 <= t_count s -> 0 <= t_index s <= Z.max 0 (t_count s - 1).
Proof. intros (H & _) Hc. destruct (t_count s =? 0) eqn:E; lia. Qed.
Lemma moved_fine i s d : inv s d -> i <= Z.max 0 (t_count s - 1) -> fine (navigated c (w_index i s)) s d.
Proof. intros H Hi. apply navigated_fine; [apply H|apply H|apply H|exact Hi|reflexivity]. Qed.
Lemma choose_fine u s d : inv s d -> match choose u s with Ended _ _ => True | _ => False end.
Proof.
  intros Hi. unfold choose. destruct ((0 <=? t_index s) && (t_index s <? t_count s)) eqn:E; [|exact Logic.I].
  pose proof Hi as ((_ & (L & HL) & _) & _). destruct (selected_some s L HL ltac:(lia)) as [r Hr].
  destruct (erased s L r HL Hr) as (o & -> & _ & _ & -> & _). exact Logic.I.
Qed.
Lemma mouse_fine m b i row can speed s d : inv s d -> 0 <= speed -> fine (mouse c m b i row can speed s) s d.
Proof.
  intros Hi Hsp. pose proof Hi as (Hb & Hty & Hval). pose proof (count_nonneg _ _ Hb) as Hc. pose proof (valid_index _ Hval Hc) as Hix.
  pose proof Hb as (Hv & (L & HL) & _). pose proof (count_le hit c _ _ HL) as Hle. pose proof HL as (_ & _ & _ & Hbig & _). destruct Hval as (V1 & V2 & V3).
  unfold mouse. cbv zeta. match goal with |- context [t_bar ?x] => set (s0 := x) end. unfold rows.
  assert (exists v, s0 = w_bar v s) as [v Es0].
  { unfold s0. destruct m; [| |exists (t_bar s); destruct s; reflexivity]; (destruct (_ && _ && _); [eexists; reflexivity|exists (t_bar s); destruct s; reflexivity]). }
  clearbody s0. subst s0. assert (Hi2 : inv (w_bar v s) d) by exact Hi. cbn [t_bar w_bar t_top t_count]. destruct v.
  { assert (exists j, hittest (Z.min (Z.max row 0) (Z.min (t_count s) (c_vis c) - 1)) (Z.min (t_count s) (c_vis c)) (t_count s) = Some j /\ j <= Z.max 0 (t_count s - 1)) as (j & -> & Hj).
    { destruct (Z.eq_dec (t_count s) 0) as [E|E]; [exists 0; unfold hittest; rewrite E; replace (Z.min 0 (c_vis c) <=? 1) with true by lia; split; [reflexivity|lia]|].
      destruct (hit_row (Z.min (Z.max row 0) (Z.min (t_count s) (c_vis c) - 1)) (Z.min (t_count s) (c_vis c)) (t_count s)) as (j & Ej & Hj); [lia|lia|nia|]. exists j. split; [exact Ej|lia]. }
    match goal with |- context [set_top ?t ?g ?x] => destruct (set_top_is t g x) as [g' ->] end.
    apply navigated_fine; [exact Hb|exact Hty| |exact Hj|reflexivity]. cbn [t_top t_count w_ign w_top w_index w_bar]. lia. }
  match goal with |- fine (if ?x then _ else _) _ _ => destruct x; [exact Logic.I|] end.
  match goal with |- fine (if ?x then _ else _) _ _ => destruct x; [apply finish_fine; [exact Hi2|reflexivity]|] end.
  destruct ((0 <=? row) && (row <? Z.min (t_count s) (c_vis c))) eqn:Er.
  - assert (Hn : fine (navigated c (w_ign true (w_index (row + t_top s) (w_bar false s)))) s d).
    { apply navigated_fine; [exact Hb|exact Hty|exact V2|cbn [t_index t_count w_ign w_index w_bar]; lia|reflexivity]. }
    destruct m; [exact Hn| |exact Hn].
    match goal with |- context [display c ?x] => destruct (display_inv hit c x d) as (t & g & y & -> & Hinv) end; [exact Hb|exact Hty| |].
    + split; [exact Hv|]. split; [exact Hc|]. cbn [t_index t_count t_top w_ign w_index w_bar]. replace (t_count s =? 0) with false by lia. split; [lia|exact V2].
    + pose proof (choose_fine true _ _ Hinv) as H. destruct (choose true _); [contradiction|exact Logic.I|contradiction].
  - assert (Hn : fine (finish c true (Some (w_bar false s))) s d) by (apply finish_fine; [exact Hi2|reflexivity]).
    destruct m; [exact Hn|exact Hn|]. destruct can; [|exact Hn]. cbn [negb]. destruct (row <? 0) eqn:E0.
    + destruct (0 <? t_top s) eqn:E1; [|exact Hn]. match goal with |- context [set_top ?t ?g ?x] => destruct (set_top_is t g x) as [g' ->] end.
      apply navigated_fine; [exact Hb|exact Hty| | |reflexivity]; cbn [t_index t_count t_top w_ign w_top w_index w_bar]; lia.
    + match goal with |- fine (if ?x then _ else _) _ _ => destruct x eqn:E1; [|exact Hn] end. match goal with |- context [set_top ?t ?g ?x] => destruct (set_top_is t g x) as [g' ->] end.
      apply navigated_fine; [exact Hb|exact Hty| | |reflexivity]; cbn [t_index t_count t_top w_ign w_top w_index w_bar]; lia.
Qed.
Lemma wheel_fine up n s d : inv s d -> 0 <= n -> (up = true \/ 0 < t_count s \/ n = 0) -> fine (wheel c up n s) s d.
Proof.
  intros Hi Hn Hh. pose proof Hi as (Hb & Hty & Hval). pose proof (count_nonneg _ _ Hb) as Hc. pose proof (valid_index _ Hval Hc) as Hix.
  pose proof Hb as (Hv & (L & HL) & _). pose proof (count_le hit c _ _ HL) as Hle. pose proof HL as (_ & _ & _ & Hbig & _).
  assert (t_ocount s < 2147483648) by nia. unfold wheel. cbv zeta. apply navigated_fine; [exact Hb|exact Hty|apply Hval| |reflexivity].
  cbn [t_index t_count w_ign w_index]. assert (0 <= u32 (t_index s)) by (apply Z.mod_pos_bound; lia). destruct up; [lia|].
  destruct (Z.eq_dec (t_count s) 0) as [E|E].
  - destruct Hh as [H1|[H1| ->]]; [discriminate|lia|]. assert (0 <= u32 (t_count s - 1 - t_index s)) by (apply Z.mod_pos_bound; lia). lia.
  - assert (u32 (t_count s - 1 - t_index s) = t_count s - 1 - t_index s) as -> by (apply Z.mod_small; lia). lia.
Qed.
Lemma page_up_fine s d : inv s d -> (t_index s = 0 \/ scroll_offset c <= Z.min (t_count s) (c_vis c)) -> fine (page_up c s) s d.
Proof.
  intros Hi Hh. pose proof Hi as (Hb & Hty & Hval). pose proof (count_nonneg _ _ Hb) as Hc. pose proof (valid_index _ Hval Hc) as Hix.
  unfold page_up. cbv zeta. unfold rows. destruct (0 <? t_index s) eqn:E; [|apply finish_fine; [exact Hi|reflexivity]].
  apply moved_fine; [exact Hi|]. destruct (t_index s <=? t_top s + scroll_offset c) eqn:E1; lia.
Qed.
Lemma page_down_fine s d : inv s d -> fine (page_down c s) s d.
Proof.
  intros Hi. pose proof Hi as (Hb & Hty & Hval). pose proof (count_nonneg _ _ Hb) as Hc. pose proof (valid_index _ Hval Hc) as Hix.
  unfold page_down. cbv zeta. destruct (t_index s <? t_count s - 1) eqn:E; [|apply finish_fine; [exact Hi|reflexivity]].
  match goal with |- context [t_count s - 1 <? ?x] => replace (t_count s - 1 <? x) with false by lia end. apply moved_fine; [exact Hi|]. lia.
Qed.
End Input.

Section Keys.
Variable hit begins : bytes -> bytes -> bool.
Variable whole : bytes -> Prop.
Hypothesis hit_more : forall n x t, whole n -> n <> [] -> hit (n ++ x) t = true -> hit n t = true.
Variable c : cfg.
Notation data := (data hit c). Notation inv := (inv hit c). Notation base := (base hit c). Notation fine := (fine hit c).

Notation ready := (ready whole).
Lemma find_fine b busy dir fb adv need x s d : ready x -> base x d -> valid c x -> dir = 1 \/ dir = -1 -> t_ocount x = t_ocount s ->
  fine (finish c b (then_display c (do_find hit begins c busy dir fb adv x) need)) s d.
Proof.
  intros Hrd Hb Hv Hd E. destruct (do_find_inv hit begins whole hit_more c busy dir fb adv x d Hrd Hb Hv Hd) as (s' & sh & -> & Hi & _ & E' & _).
  cbn [then_display]. rewrite E in E'. destruct (sh || need); [apply redisplay_fine|apply finish_fine]; assumption.
Qed.
Lemma info_some s L l i : data s L -> t_infos s = Some l -> 0 <= i < t_count s -> exists r, zth (shown hit s L) i = Some r /\ info_at s l i = Some (r_number r).
Proof.
  intros HL El Hi. rewrite (shown_length hit c _ _ HL) in Hi. destruct (zth_some _ _ Hi) as [r Hr]. exists r. split; [exact Hr|].
  destruct (place hit c _ _ _ _ HL Hr) as (j & Ej & Hj & _). unfold info_at. rewrite Ej. destruct HL as ((_ & _ & _ & T4) & _). rewrite El in T4.
  destruct T4 as [rest ->]. apply zth_app. rewrite zth_map, Hj. reflexivity.
Qed.
Lemma lookup_some s L l dg : data s L -> t_infos s = Some l -> forall fuel i, 0 <= i -> i + Z.of_nat fuel <= t_count s ->
  exists j, lookup fuel s l dg i = Some j /\ i <= j <= i + Z.of_nat fuel /\
    (forall k r, i <= k < j -> zth (shown hit s L) k = Some r -> prefixb dg (dec (Z.to_N (r_number r + 1))) = false) /\
    (j < i + Z.of_nat fuel -> exists r, zth (shown hit s L) j = Some r /\ prefixb dg (dec (Z.to_N (r_number r + 1))) = true).
Proof.
  intros HL El. induction fuel as [|fuel IH]; intros i Hi Hc; cbn [lookup].
  - exists i. split; [reflexivity|]. split; [lia|]. split; [intros; lia|lia].
  - destruct (info_some s L l i HL El ltac:(lia)) as (r & Hr & ->). destruct (prefixb dg (dec (Z.to_N (r_number r + 1)))) eqn:E.
    + exists i. split; [reflexivity|]. split; [lia|]. split; [intros; lia|]. intros _. exists r. auto.
    + destruct (IH (i + 1) ltac:(lia) ltac:(lia)) as (j & -> & Hj & H1 & H2). exists j. split; [reflexivity|]. split; [lia|]. split; [|intros H; apply H2; lia].
      intros k r' Hk Hr'. destruct (Z.eq_dec k i) as [->|Hne]; [rewrite Hr in Hr'; injection Hr' as <-; exact E|]. apply (H1 k r'); [lia|exact Hr'].
Qed.
Lemma enter_fine b x s d : inv x d -> t_ocount x = t_ocount s -> fine (finish c b (enter_number c x)) s d.
Proof.
  intros Hi E. unfold enter_number. cbv zeta. assert (Hi2 : inv (w_title true x) d) by exact Hi. set (x' := w_title true x) in *.
  assert (E2 : t_ocount x' = t_ocount s) by exact E. clearbody x'. clear Hi E x. pose proof Hi2 as (Hb & Hty & Hval). pose proof Hb as (Hv & (L & HL) & _).
  assert (exists j, (match t_infos x' with Some l => lookup (Z.to_nat (t_count x')) x' l (dec (undec 0 (t_needle x'))) 0 | None => Some (Z.of_N (undec 0 (t_needle x')) - 1) end) = Some j) as [j ->].
  { destruct (t_infos x') as [l|] eqn:El; [|eauto]. pose proof (count_nonneg hit c _ _ Hb). destruct (lookup_some x' L l (dec (undec 0 (t_needle x'))) HL El (Z.to_nat (t_count x')) 0 ltac:(lia) ltac:(lia)) as (j & -> & _). eauto. }
  destruct ((0 <=? j) && (j <? t_count x')) eqn:Ej; [|apply redisplay_fine; assumption].
  destruct (center_valid c (w_index j x') Hv) as (t & -> & Hval2); [cbn [t_index t_count w_index]; lia|exact (proj1 (proj2 Hval))|].
  apply redisplay_fine; [|exact E2]. split; [exact Hb|]. split; [exact Hty|exact Hval2].
Qed.
Lemma update_fine e fb need clears x s d : ready x -> base x d -> valid c x -> t_ocount x = t_ocount s -> fine (update_needle hit begins c e fb need clears x) s d.
Proof.
  intros Hrd Hb Hval E. pose proof Hb as (Hv & HL & Hs & (M1 & M2 & M3 & M4)). unfold update_needle. cbv zeta.
  assert (Hd : forall y, inv y d -> t_ocount y = t_ocount s -> forall b : bool, fine (finish c clears (if b then display c y else Some y)) s d).
  { intros y Hy Ey b. destruct b; [apply redisplay_fine|apply finish_fine]; assumption. }
  destruct (c_win c) eqn:Ew; cbn [negb].
  - destruct (win_plain hit c _ _ Hb Ew) as [Hf Ed]. assert (Hi : inv x d) by (split; [exact Hb|split; [intros H; destruct (H Hf)|exact Hval]]).
    destruct (t_isnum x) eqn:En.
    + destruct (is_nil (t_needle x)); cbn [negb]; [|apply enter_fine; assumption]. apply Hd; [exact Hi|exact E].
    + destruct (is_nil (t_needle x)); cbn [negb]; [apply Hd; [exact Hi|exact E]|]. apply find_fine; auto.
  - cbn [t_nf t_filt t_needle w_title]. destruct (t_nf x) eqn:Enf.
    + apply Hd; [|exact E]. split; [exact Hb|]. split; [|exact Hval]. intros H. cbn [t_fstr w_title] in H. specialize (M1 H). congruence.
    + destruct (e_queued e && (t_filt x || e_invalid e (t_needle x))).
      * apply finish_fine; [|exact E]. split; [split; [exact Hv|split; [exact HL|split; [exact Hs|]]]|].
        -- split; [intros _; exact Enf|]. split; [|split; [exact M3|rewrite Ew; exact M4]]. intros a b y H. cbn [t_pend w_pend] in H. injection H as <- _ _. reflexivity.
        -- split; [intros _ H; cbn [t_pend w_pend] in H; discriminate|exact Hval].
      * apply find_fine; [exact Hrd|exact Hb|exact Hval|left; reflexivity|exact E].
Qed.
Lemma collect_base x need b d : base x d -> valid c x -> let y := fst (collect c (x, need) b) in base y d /\ valid c y /\ t_ocount y = t_ocount x /\ t_fstr y = t_fstr x.
Proof.
  intros Hb Hval. cbv zeta. unfold collect. destruct (Nat.ltb (nat_of_ascii b) 32); [auto|]. pose proof Hb as (Hv & HL & Hs & (M1 & M2 & M3 & M4)).
  destruct (c_win c) eqn:Ew; cbn [negb].
  - destruct (win_plain hit c _ _ Hb Ew) as [Hf ->]. destruct (is_digit b).
    + destruct (t_isnum x) eqn:En.
      * destruct (Nat.ltb (length (t_needle x)) 6); cbn [fst]; [|auto]. split; [|split; [exact Hval|split; reflexivity]]. split; [exact Hv|]. split; [exact HL|]. split; [exact Hs|].
        split; [exact M1|]. split; [exact M2|]. split; [intros; discriminate|intros; exact Ew].
      * cbn [t_needle w_isnum w_nf w_needle w_title length Nat.ltb Nat.leb fst]. split; [|split; [exact Hval|split; reflexivity]]. split; [exact Hv|]. split; [exact HL|]. split; [exact Hs|].
        split; [reflexivity|]. split; [exact M2|]. split; [intros; discriminate|intros; exact Ew].
    + cbn [fst]. split; [|split; [exact Hval|split; reflexivity]]. split; [exact Hv|]. split; [exact HL|]. split; [exact Hs|].
      split; [reflexivity|]. split; [exact M2|]. split; [intros; discriminate|intros; exact Ew].
  - cbn [fst]. split; [|split; [exact Hval|split; reflexivity]]. split; [exact Hv|]. split; [exact HL|]. split; [exact Hs|].
    split; [exact M1|]. split; [exact M2|]. split; [|rewrite Ew; exact M4]. intros H. destruct (M3 H) as [N1 N2]. split; [exact N1|]. cbn [t_needle w_needle w_title]. destruct (t_needle x); discriminate.
Qed.
Lemma collect_all keys d : forall x need, base x d -> valid c x ->
  let y := fst (fold_left (collect c) keys (x, need)) in base y d /\ valid c y /\ t_ocount y = t_ocount x /\ t_fstr y = t_fstr x.
Proof.
  induction keys as [|b keys IH]; intros x need Hb Hval; cbn [fold_left]; [auto|]. pose proof (collect_base x need b d Hb Hval) as H. cbv zeta in H.
  destruct (collect c (x, need) b) as [y n]. cbn [fst] in H. destruct H as (H1 & H2 & H3 & H4). destruct (IH y n H1 H2) as (G1 & G2 & G3). cbv zeta. rewrite <- H3, <- H4. auto.
Qed.
Lemma text_fine e keys s d : (t_fstr s <> [] -> whole (t_fstr s)) -> inv s d -> fine (text hit begins c e keys s) s d.
Proof.
  intros Hwh (Hb & Hty & Hval). unfold text.
  set (x := if t_clr s then w_clr false (if t_filt s then s else w_isnum false (w_nf false (w_needle [] s))) else s).
  assert (base x d /\ valid c x /\ t_ocount x = t_ocount s /\ t_fstr x = t_fstr s) as (H1 & H2 & H3 & H4).
  { unfold x. destruct (t_clr s); [|auto]. destruct (t_filt s) eqn:Ef; [auto|]. split; [|split; [exact Hval|split; reflexivity]].
    pose proof Hb as (Hv & HL & Hs & (M1 & M2 & M3 & M4)). split; [exact Hv|]. split; [exact HL|]. split; [exact Hs|]. split; [reflexivity|]. split; [exact M2|].
    split; [|intros; discriminate]. intros Hd. destruct (M3 Hd) as [N _]. exfalso. destruct HL as (L & _ & _ & _ & _ & _ & D2). destruct (D2 N) as (_ & _ & H & _). congruence. }
  pose proof (collect_all keys d x false H1 H2) as H. cbv zeta in H. destruct (fold_left (collect c) keys (x, false)) as [y n]. cbn [fst] in H.
  destruct H as (G1 & G2 & G3 & G4). apply update_fine; [intros H; right; rewrite G4, H4 in *; apply Hwh; exact H|exact G1|exact G2|congruence].
Qed.

Lemma do_find_pend busy dir fb adv s s' b : do_find hit begins c busy dir fb adv s = Some (s', b) -> t_pend s' = t_pend s.
Proof.
  unfold do_find. destruct (t_nf s); [intros E; injection E as <- _; reflexivity|]. destruct (t_filt s && negb (c_win c)).
  - unfold filter_items. destruct (eqb_bytes _ _); [intros E; injection E as <- _; reflexivity|]. destruct (is_nil (t_needle s)).
    { intros E. injection E as <- _. unfold clear_filter. destruct (is_nil (t_fstr s)); [reflexivity|].
      match goal with |- context [set_top ?t ?g ?x] => destruct (set_top_is t g x) as [g' ->] end. reflexivity. }
    cbv zeta. destruct (busy && _); [intros E; injection E as <- _; reflexivity|].
    match goal with |- match ?x with _ => _ end = _ -> _ => destruct x as [js|]; [|discriminate] end.
    match goal with |- context [set_top ?t ?g ?x] => destruct (set_top_is t g x) as [g' ->] end.
    match goal with |- context [update_top c ?x] => destruct (update_top_is c x) as (t & g2 & ->) end. intros E. injection E as <- _. destruct (is_nil (t_fstr s)); reflexivity.
  - cbv zeta. match goal with |- match ?x with _ => _ end = _ -> _ => destruct x as [[i|]|]; [| |discriminate] end; intros E; injection E as <- _.
    + unfold center. destruct (_ || _); reflexivity.
    + destruct (_ && _); reflexivity.
Qed.
Lemma settle_inv e k s d : ready s -> inv s d -> exists m, settle hit begins c e k (w_ign false s) = Some m /\ inv m d /\ t_ocount m = t_ocount s /\
  (match k with k_backspace _ | k_text _ => m = w_ign false s | _ => t_pend m = None end) /\ ready m.
Proof.
  intros Hrd Hi. pose proof Hi as (Hb & Hty & Hval). assert (Hi2 : inv (w_ign false s) d) by exact Hi.
  assert (H : exists m, match t_pend (w_ign false s) with None => Some (w_ign false s) | Some (a, fb, adv) => match do_find hit begins c (e_busy e) a fb adv (w_pend None (w_ign false s)) with None => None | Some (s0, _) => display c s0 end end = Some m /\ inv m d /\ t_ocount m = t_ocount s /\ t_pend m = None /\ ready m).
  { cbn [t_pend w_ign]. destruct (t_pend s) as [[[a fb] adv]|] eqn:Ep; [|exists (w_ign false s); auto].
    pose proof Hb as (Hv & HL & Hs & (M1 & M2 & M3 & M4)). assert (a = 1) as -> by exact (M2 _ _ _ Ep).
    destruct (do_find_inv hit begins whole hit_more c (e_busy e) 1 fb adv (w_pend None (w_ign false s)) d) as (s' & sh & E & Hi' & _ & Eo & Hrd').
    - exact Hrd.
    - split; [exact Hv|]. split; [exact HL|]. split; [exact Hs|]. split; [exact M1|]. split; [intros ? ? ? H; discriminate|]. split; [exact M3|exact M4].
    - exact Hval.
    - left; reflexivity.
    - rewrite E. apply do_find_pend in E. destruct (display_inv hit c s' d) as (t & g & y & -> & Hi3); [apply Hi'|apply Hi'|apply (inv_inside hit c _ d Hi')|].
      eexists. split; [reflexivity|]. split; [exact Hi3|]. split; [exact Eo|]. split; [exact E|exact Hrd']. }
  destruct H as (m & H1 & H2 & H3 & H4 & H5). unfold settle. destruct k; try (exists m; split; [exact H1|auto]); exists (w_ign false s); auto.
Qed.
Lemma act_fine e k m d : ready m -> inv m d -> (match k with k_backspace _ | k_text _ => t_fstr m <> [] -> whole (t_fstr m) | _ => t_pend m = None end) -> harmless c k m ->
  (d = true -> k <> k_togglefilter /\ forall p, k = k_backspace p -> firstn p (t_needle m) <> []) -> (forall okk, k <> k_delete okk) ->
  fine (act hit begins c e k m) m d.
Proof.
  intros Hrd Hi Hp Hh Hd Hnd. pose proof Hi as (Hb & Hty & Hval). pose proof (count_nonneg hit c _ _ Hb) as Hc. pose proof (valid_index c _ Hval Hc) as Hix.
  assert (Hstay : forall b, fine (finish c b (Some m)) m d) by (intros; apply finish_fine; [exact Hi|reflexivity]).
  assert (Hshow : forall b (y : bool), fine (finish c b (if y then display c m else Some m)) m d).
  { intros b y. destruct y; [|apply Hstay]. apply redisplay_fine; [exact Hi|reflexivity]. }
  assert (Hch : forall u, fine (choose u m) m d).
  { intros u. pose proof (choose_fine hit c u m d Hi) as H. destruct (choose u m); [contradiction|exact Logic.I|contradiction]. }
  destruct k; cbn [act harmless] in *.
  - apply moved_fine; [exact Hi|]. destruct (t_index m - 1 <? 0) eqn:E; destruct (c_wrap c); lia.
  - apply moved_fine; [exact Hi|]. destruct (t_count m <=? t_index m + 1) eqn:E; destruct (c_wrap c); lia.
  - apply moved_fine; [exact Hi|lia].
  - apply moved_fine; [exact Hi|lia].
  - apply page_up_fine; assumption.
  - apply page_down_fine; assumption.
  - destruct (c_win c); [apply Hstay|]. apply find_fine; auto.
  - destruct (c_win c); [apply Hstay|]. apply find_fine; auto.
  - pose proof Hb as (_ & (L & HL) & _). pose proof (count_le hit c _ _ HL) as Hle. destruct HL as ((T1 & (rest & T2) & _) & _ & Hpos & _).
    destruct (zth_some (t_entries m) (t_index m)) as [t Ht]; [rewrite T2, app_length, map_length; lia|]. rewrite Ht. split; [exact Hi|reflexivity].
  - destruct (Hnd _ eq_refl).
  - exact Logic.I.
  - destruct (_ || _); [apply Hstay|apply Hch].
  - destruct (_ || _); [apply Hstay|apply Hch].
  - apply mouse_fine; assumption.
  - apply wheel_fine; auto.
  - destruct Hh as [H1 H2]. apply wheel_fine; auto.
  - destruct (c_win c); [destruct (_ || _); [apply Hstay|apply Hch]|apply Hshow].
  - apply Hshow.
  - destruct (c_win c) eqn:Ew; [apply Hstay|]. destruct d; [destruct (Hd eq_refl) as [H _]; destruct (H eq_refl)|]. destruct (t_filt m) eqn:Ef.
    + destruct (clear_filter_inv hit c m Hb Hval) as (s' & Es & (Hb' & _ & Hval') & Hf & _ & Ho & _). rewrite Es. apply update_fine; [intros H; destruct (H Hf)| |exact Hval'|exact Ho].
      destruct Hb' as (Hv & (L & HL) & Hs & Hm). split; [exact Hv|]. split; [|split; [exact Hs|exact Hm]]. exists L. destruct HL as (H1 & H2 & H3 & H4 & H5 & H6).
      split; [exact H1|]. split; [exact H2|]. split; [exact H3|]. split; [exact H4|]. split; [exact H5|]. intros H. destruct (H Hf).
    + apply update_fine; [exact Hrd| |exact Hval|reflexivity]. destruct Hb as (Hv & (L & HL) & Hs & Hm). split; [exact Hv|]. split; [|split; [exact Hs|exact Hm]]. exists L.
      destruct HL as (H1 & H2 & H3 & H4 & H5 & H6). split; [exact H1|]. split; [exact H2|]. split; [exact H3|]. split; [exact H4|]. split; [exact H5|].
      intros H. destruct (H6 H) as (_ & _ & H7 & _). congruence.
  - apply Hstay.
  - destruct (is_nil (t_needle m)); [apply Hstay|]. apply update_fine; [intros H; right; exact (Hp H)| |exact Hval|reflexivity]. destruct Hb as (Hv & HL & Hs & (M1 & M2 & M3 & M4)).
    split; [exact Hv|]. split; [exact HL|]. split; [exact Hs|]. split; [reflexivity|]. split; [exact M2|]. split; [|exact M4].
    intros E. split; [apply M3; exact E|]. destruct (Hd E) as [_ H]. apply H. reflexivity.
  - apply text_fine; [exact Hp|exact Hi].
Qed.

(** The invariant is kept by every careful key. *)
Theorem input_inv e k s d : inv s d -> careful hit begins whole c e k s d ->
  match on_input hit begins c e k s with
  | Undefined => False
  | Ended _ _ => True
  | Go s' => inv s' (negb (is_nil (t_fstr s')) && (d || (t_ocount s' <? t_ocount s)))
  end.
Proof.
  intros Hi (C0 & C1 & C2). unfold on_input. replace (c_vis c <=? 0) with false by (destruct Hi as ((H & _) & _); lia).
  destruct (settle_inv e k s d) as (m & Em & Him & Eo & Hp & Hrd); [intros H; right; exact (C0 H)|exact Hi|]. rewrite Em. specialize (C2 m Em).
  destruct (match k with k_delete okk => true | _ => false end) eqn:Ek.
  - destruct k; try discriminate. cbn [act]. pose proof (delete_fine hit c m d ok Him Hp C2) as H. rewrite Eo in H.
    destruct (delete c ok m); [apply H|exact Logic.I|contradiction].
  - assert (H : fine (act hit begins c e k m) m d).
    { apply act_fine; [exact Hrd|exact Him|destruct k; auto; rewrite Hp; exact C0|exact C2| |intros okk ->; discriminate]. intros Ed. destruct (C1 Ed) as [H1 H2]. split; [exact H1|].
      intros p ->. specialize (H2 p eq_refl). rewrite Hp. exact H2. }
    destruct (act hit begins c e k m) as [s'|r s'|]; [|exact Logic.I|contradiction]. destruct H as [H1 H2]. rewrite H2, Eo, Z.ltb_irrefl, Bool.orb_false_r. apply inv_flag. exact H1.
Qed.
Lemma activate_inv L irest infos from index filt bar clip s :
  (c_win c = true -> c_hist c = true) ->
  Forall (fun r => 0 <= r_number r /\ zth from (r_number r) = Some (r_entry r)) L ->
  StronglySorted (fun a b => r_number a < r_number b) L ->
  match infos with Some l => l = map r_number L ++ irest | None => map r_number L = zseq 0 (length L) end ->
  Z.of_nat (length L) * c_vis c < 2147483648 ->
  activate c (map r_entry L) (map r_item L) infos from index filt bar clip = Some s -> inv s false.
Proof.
  intros _ HF HS Hinf Hbig. unfold activate. cbv zeta. rewrite !map_length. destruct ((Z.of_nat (length L) <=? 0) || (c_vis c <=? 0)) eqn:E; [discriminate|].
  match goal with |- display c ?x = _ -> _ => set (s0 := x) end. intros Hd.
  destruct (display_inv hit c s0 false) as (t & g & y & Ed & Hi).
  - split; [lia|]. split; [exists L|split; [intros H; destruct (H eq_refl)|]].
    + split; [split; [reflexivity|split; [exists []; rewrite app_nil_r; reflexivity|split; [reflexivity|]]]|].
      { cbn [t_infos s0]. destruct infos; [exists irest; exact Hinf|exact Hinf]. }
      split; [split; [exact HF|exact HS]|]. split; [cbn [t_ocount s0]; lia|]. split; [exact Hbig|]. split; [auto|]. intros H; destruct (H eq_refl).
    + split; [intros H; destruct (H eq_refl)|]. split; [intros; discriminate|]. split; intros; discriminate.
  - intros H; destruct (H eq_refl).
  - split; [lia|]. cbn [t_count t_index t_top s0]. replace (Z.of_nat (length L) =? 0) with false by lia. split; [lia|].
    destruct ((index <? 0) || (Z.of_nat (length L) <=? index)) eqn:Eo; lia.
  - rewrite Hd in Ed. injection Ed as ->. exact Hi.
Qed.
Theorem reach_inv s d : reach hit begins whole c s d -> inv s d.
Proof.
  induction 1 as [L irest infos from index filt bar clip s H1 H2 H3 H4 H5 H6|s d e k s' Hr IH Hc Hg].
  - eapply activate_inv; eassumption.
  - pose proof (input_inv e k s d IH Hc) as H. rewrite Hg in H. exact H.
Qed.
End Keys.
