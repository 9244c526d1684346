(** C45: the layout of matches in columns. *)
From Verif Require Import Base ColsModel ColsSpec ColsProofs.
Local Open Scope N_scope.

(** ** From the model to the specification *)
Lemma desc_len_described i x : desc_len i x = described i (own_pad i) x.
Proof.
  unfold desc_len, described, own_pad. destruct (i_descs i) eqn:D; [|reflexivity]. cbv zeta.
  destruct (N.eqb_spec (snd x) 0) as [->|NZ]; [reflexivity|]. destruct (N.eqb_spec (N.min 1024 (snd x)) 0); [lia|].
  unfold desc_padding, paren_cells. rewrite D. cbn [negb]. destruct (no_right_justify i); rewrite w16_small by lia; lia.
Qed.
Lemma part_members i n c : (0 < n)%nat -> (c < n)%nat -> part i (i_items i) n c = members i n c.
Proof.
  intros N C. unfold part, members, count. f_equal. apply filter_ext_in. intros (l & x) I. apply in_combine_l in I. apply in_seq in I. cbn [fst].
  symmetry. apply in_column_of; auto. unfold count. lia.
Qed.
Lemma longest_ext f g xs : (forall x, f x = g x) -> longest f xs = longest g xs.
Proof. intro E. unfold longest. rewrite (map_ext _ _ E). reflexivity. Qed.
Lemma need_col i n c : (0 < n)%nat -> (c < n)%nat -> colA i (i_items i) n c + colB i (i_items i) n c = need i n c + col_padding i.
Proof.
  intros N C. unfold colA, colB, need. cbv zeta. rewrite (part_members i n c N C). destruct (no_right_justify i) eqn:E.
  - rewrite (longest_ext (fa i) fst) by (intro x; unfold fa; rewrite E; reflexivity).
    rewrite (longest_ext (fb i) (described i (own_pad i))) by (intro x; unfold fb; rewrite E; apply desc_len_described). lia.
  - assert (Z : forall xs, longest (fb i) xs = 0). { unfold longest. induction xs as [|y ys IH]; [reflexivity|]. cbn [map fold_right]. rewrite IH. unfold fb. rewrite E. reflexivity. }
    rewrite Z. rewrite (longest_ext (fa i) (fun x => fst x + described i (own_pad i) x)) by (intro x; unfold fa; rewrite E, desc_len_described; reflexivity). lia.
Qed.
Lemma nsum_plus (f g : nat -> N) p xs : (forall c, In c xs -> f c = g c + p) -> nsum (map f xs) = nsum (map g xs) + N.of_nat (length xs) * p.
Proof.
  unfold nsum. induction xs as [|x xs IH]; intro H; [reflexivity|]. cbn [map fold_right length]. rewrite IH by (intros c I; apply H; right; exact I).
  rewrite (H x (or_introl eq_refl)). lia.
Qed.
Lemma line_total i n : (0 < n)%nat -> lineL i (i_items i) n = total i n + col_padding i.
Proof.
  intro N. unfold lineL, total. rewrite (nsum_plus _ (need i n) (col_padding i)).
  - rewrite seq_length. replace (N.of_nat n) with (N.of_nat (n - 1) + 1) by lia. lia.
  - intros c I. apply in_seq in I. apply need_col; lia.
Qed.

Lemma longest_in f xs x : In x xs -> f x <= longest f xs.
Proof. unfold longest. induction xs as [|y ys IH]; intros []; cbn [map fold_right]; [subst; lia|]. specialize (IH H). lia. Qed.
Lemma longest_le f xs b : (forall x, In x xs -> f x <= b) -> longest f xs <= b.
Proof. unfold longest. induction xs as [|y ys IH]; intro H; cbn [map fold_right]; [lia|]. pose proof (H y (or_introl eq_refl)). specialize (IH (fun x I => H x (or_intror I))). lia. Qed.
Lemma member_in i n c r x : (0 < n)%nat -> (c < n)%nat -> (r < rows (count i) n)%nat -> nth_error (i_items i) (cell (i_vertical i) (count i) n r c) = Some x -> In x (members i n c).
Proof.
  intros N C R E. set (l := cell (i_vertical i) (count i) n r c) in *. assert (L : (l < count i)%nat) by (apply nth_error_Some; congruence).
  unfold members. apply in_map_iff. exists (l, x). split; [reflexivity|]. apply filter_In. split.
  - apply nth_error_In with (n := l). clear - E L. unfold count in *. revert l L E. assert (G : forall s xs l, nth_error xs l = Some x -> nth_error (combine (seq s (length xs)) xs) l = Some ((s + l)%nat, x)).
    { intros s xs. revert s. induction xs as [|y ys IH]; intros s [|l] H; cbn [nth_error length seq combine] in *; try discriminate; [injection H as ->; f_equal; f_equal; lia|].
      rewrite (IH (S s) l H). f_equal. f_equal. lia. }
    intros l L E. rewrite (G 0%nat (i_items i) l E). reflexivity.
  - cbn [fst]. rewrite in_column_of by auto. apply Nat.eqb_eq. apply cell_column; auto.
Qed.

(** ** The layout *)
Inductive layout (i : input) (mx : maxes) : list N -> list N -> Prop :=
| lay_variable (n : nat) : best_fit i -> (1 <= n <= 50)%nat -> total i n + 1 <= i_screen i ->
    (forall n' : nat, (n < n' <= 50)%nat -> (n' <= count i)%nat -> i_screen i <= total i n' + 1) ->
    layout i mx (map (need i n) (seq 0 n)) (map (colA i (i_items i) n) (seq 0 n))
| lay_fixed (n : nat) : (best_fit i -> i_items i <> [] -> n = 1%nat /\ forall n' : nat, (1 <= n' <= 50)%nat -> (n' <= count i)%nat -> i_screen i <= total i n' + 1) ->
    (1 <= n)%nat -> ((1 < n)%nat -> N.of_nat n * (x_len mx + col_padding i) <= line_length i) -> (i_one_column i = true -> n = 1%nat) ->
    layout i mx (repeat (x_len mx) n) (repeat (x_match mx) n).

Lemma many_columns i n : (0 < n)%nat -> max_idx i < N.of_nat n -> line_length i <= lineL i (i_items i) n.
Proof.
  intros N M. unfold max_idx in M. pose proof (pad_val i) as PV. cbv zeta in PV. assert (D : line_length i < N.of_nat n * (1 + col_padding i)).
  { pose proof (N.mul_succ_div_gt (line_length i) (1 + col_padding i) ltac:(lia)) as G. nia. }
  assert (S : forall xs, N.of_nat (length xs) * (1 + col_padding i) <= nsum (map (fun c => colA i (i_items i) n c + colB i (i_items i) n c) xs)).
  { unfold nsum. induction xs as [|c xs IH]; [cbn; lia|]. cbn [map fold_right length].
    assert (1 + col_padding i <= colA i (i_items i) n c + colB i (i_items i) n c) by (unfold colA, colB; lia). nia. }
  specialize (S (seq 0 n)). rewrite seq_length in S. unfold lineL. lia.
Qed.
Lemma find_limit_last (p : list cinfo) c : c_valid c = true -> find_limit (p ++ [c]) (length (p ++ [c])) = length (p ++ [c]).
Proof.
  intro V. rewrite app_length. cbn [length]. rewrite Nat.add_1_r. cbn [find_limit]. destruct (length p) as [|k] eqn:E; [reflexivity|].
  rewrite nth_error_app2 by lia. rewrite <- E, Nat.sub_diag. cbn [nth_error]. rewrite V. reflexivity.
Qed.
Lemma line_screen i : line_length i + 1 = i_screen i + col_padding i.
Proof. unfold line_length. pose proof (pad_val i) as PV. cbv zeta in PV. lia. Qed.
Lemma maxes_small i mx : small i -> maxes_ok i (i_items i) mx -> x_match mx < 60000 /\ x_desc mx <= 1030 /\ x_len mx < 61030.
Proof.
  intros (_ & F) (A & B & C). rewrite Forall_forall in F. rewrite A, B, C. split; [|split].
  - enough (longest fst (i_items i) <= 59999) by lia. apply longest_le. intros x X. specialize (F x X). lia.
  - apply longest_le. intros x _. apply desc_len_small.
  - enough (longest (fun x => fst x + desc_len i x) (i_items i) <= 61029) by lia. apply longest_le. intros x X. specialize (F x X). pose proof (desc_len_small i x). lia.
Qed.
Lemma members_one i : i_items i <> [] -> members i 1 0 = i_items i.
Proof.
  intro NE. unfold members. assert (G : forall (xs : list item) s, (s + length xs <= count i)%nat -> map snd (filter (fun p : nat * item => in_column i 1 0 (fst p)) (combine (seq s (length xs)) xs)) = xs).
  { induction xs as [|x xs IH]; intros s L; [reflexivity|]. cbn [length seq combine filter fst] in *. rewrite in_column_of by lia.
    pose proof (column_small (i_vertical i) (count i) s 0 ltac:(lia)) as K. cbn [Nat.sub]. destruct (column_of _ _ s 0); [|lia]. cbn [Nat.eqb map snd]. f_equal. apply IH. lia. }
  apply G. unfold count. lia.
Qed.
Lemma one_column_need i mx : i_items i <> [] -> maxes_ok i (i_items i) mx -> need i 1 0 <= 2 * x_len mx + 1 /\ (x_len mx <> 0 -> need i 1 0 <= 2 * x_len mx).
Proof.
  intros NE (_ & _ & C). unfold need. cbv zeta. rewrite (members_one i NE).
  assert (A : longest fst (i_items i) <= x_len mx). { rewrite C. apply longest_le. intros x X. pose proof (longest_in (fun x => fst x + desc_len i x) _ x X) as Q. cbv beta in Q. lia. }
  assert (B : longest (described i (own_pad i)) (i_items i) <= x_len mx).
  { rewrite C. apply longest_le. intros x X. pose proof (longest_in (fun x => fst x + desc_len i x) _ x X) as Q. cbv beta in Q. rewrite desc_len_described in Q at 1. lia. }
  assert (D : longest (fun x => fst x + described i (own_pad i) x) (i_items i) = x_len mx).
  { rewrite C. apply longest_ext. intro x. rewrite desc_len_described. reflexivity. }
  rewrite D. destruct (no_right_justify i); lia.
Qed.

Lemma fixed_count i mx : let n := N.to_nat (if i_one_column i then 1 else N.max (line_length i / (x_len mx + col_padding i)) 1) in
  (1 <= n)%nat /\ ((1 < n)%nat -> N.of_nat n * (x_len mx + col_padding i) <= line_length i) /\ (i_one_column i = true -> n = 1%nat).
Proof.
  cbv zeta. pose proof (pad_val i) as PV. cbv zeta in PV. destruct (i_one_column i); [lia|]. split; [lia|]. split; [|discriminate].
  intro H. pose proof (N.mul_div_le (line_length i) (x_len mx + col_padding i) ltac:(lia)) as D. rewrite N2Nat.id.
  destruct (N.max_spec (line_length i / (x_len mx + col_padding i)) 1) as [[? E]|[? E]]; rewrite E in *; [lia|]. rewrite N.mul_comm. exact D.
Qed.

Lemma calculate_layout i : small i -> exists mx ws ms, maxes_ok i (i_items i) mx /\ layout i mx ws ms /\
  calculate i = Some (
    let right := negb (no_right_justify i) && ((1 <? length ws)%nat || (i_screen i * 4 / 10 <? x_match mx)) && (hd 0 ws <? size_sub (i_screen i) 2) in
    if negb (no_right_justify i) && negb right
    then mkws (repeat (x_match mx + (4 - desc_padding i) + x_desc mx) (length ws)) (repeat (x_match mx) (length ws)) 4 right
    else mkws ws ms (desc_padding i) right).
Proof.
  intro SM.
  assert (FIN : forall mx ws ms, maxes_ok i (i_items i) mx ->
    Some (let right := negb (no_right_justify i) && ((1 <? length ws)%nat || (i_screen i * 4 / 10 <? x_match mx)) && (hd 0 ws <? size_sub (i_screen i) 2) in
      if negb (no_right_justify i) && negb right
      then mkws (repeat (w16 (x_match mx + (4 - desc_padding i) + x_desc mx)) (length ws)) (repeat (w16 (x_match mx)) (length ws)) 4 right
      else mkws ws ms (desc_padding i) right) =
    Some (let right := negb (no_right_justify i) && ((1 <? length ws)%nat || (i_screen i * 4 / 10 <? x_match mx)) && (hd 0 ws <? size_sub (i_screen i) 2) in
      if negb (no_right_justify i) && negb right
      then mkws (repeat (x_match mx + (4 - desc_padding i) + x_desc mx) (length ws)) (repeat (x_match mx) (length ws)) 4 right
      else mkws ws ms (desc_padding i) right)).
  { intros mx ws ms M. destruct (maxes_small i mx SM M) as (A & B & C). rewrite !w16_small by lia. reflexivity. }
  assert (M0 : maxes_ok i [] (mkmax 0 0 0)) by (split; [reflexivity|split; reflexivity]).
  unfold calculate. cbv zeta. destruct (init_info i) as [t0|] eqn:I0.
  - destruct (i_one_column i) eqn:OC.
    + destruct (loop_fixed i (i_items i) [] (mkmax 0 0 0) t0 eq_refl M0) as (mx & L & M). change (length (@nil item)) with 0%nat in L. rewrite L. cbn [orb].
      destruct (maxes_small i mx SM M) as (A & B & C). rewrite !w16_small by lia.
      exists mx, (repeat (x_len mx) (N.to_nat 1)), (repeat (x_match mx) (N.to_nat 1)). split; [exact M|]. split; [|first [reflexivity|exact (FIN mx _ _ M)]].
      apply lay_fixed; [intros [X _]; congruence|cbn; lia|cbn; lia|reflexivity].
    + destruct (init_ok i t0 I0) as [LT0 T0].
      destruct (loop_ok i SM (i_items i) [] (top i) (mkmax 0 0 0) t0 eq_refl T0 M0 (or_introl eq_refl)) as (mx & t & L & T & M & V). change (length (@nil item)) with 0%nat in L. rewrite L. cbn [orb].
      assert (BF : best_fit i).
      { split; [exact OC|]. unfold init_info in I0. destruct (Z.ltb_spec (i_max_matches i) 0); [discriminate|]. destruct (Z.eqb_spec (i_max_matches i) 0); [auto|]. cbn [negb andb] in I0.
        destruct (Z.ltb_spec (i_max_matches i) (Z.of_nat (count i))); [discriminate|]. right. lia. }
      assert (BIG : forall n', (length t < n')%nat -> (n' <= 50)%nat -> (n' <= count i)%nat -> i_screen i <= total i n' + 1).
      { intros n' L1 L2 L3. enough (line_length i <= lineL i (i_items i) n') by (pose proof (line_total i n' ltac:(lia)); pose proof (line_screen i); lia).
        destruct (N.ltb_spec (max_idx i) (N.of_nat n')) as [Q|Q]; [apply many_columns; [lia|exact Q]|]. destruct T as (_ & _ & T3). replace n' with (n' - 1 + 1)%nat by lia. apply T3.
        unfold top. destruct (N.ltb_spec (N.of_nat (count i)) (max_idx i)); lia. }
      destruct (Nat.eqb_spec (length t) 0) as [Z|NZ].
      * destruct (maxes_small i mx SM M) as (A & B & C). rewrite !w16_small by lia. pose proof (fixed_count i mx) as FC. cbv zeta in FC. rewrite OC in FC.
        set (n := N.to_nat (N.max (line_length i / (x_len mx + col_padding i)) 1)) in *. exists mx, (repeat (x_len mx) n), (repeat (x_match mx) n).
        split; [exact M|]. split; [|first [reflexivity|exact (FIN mx _ _ M)]]. apply lay_fixed; [|apply FC|apply FC|congruence].
        intros _ NE. split; [|intros n' H1 H2; apply BIG; lia]. destruct (Nat.eq_dec n 1) as [|N1]; [assumption|]. exfalso. destruct FC as (F1 & F2 & _). specialize (F2 ltac:(lia)).
        assert (C1 : (1 <= count i)%nat) by (unfold count; destruct (i_items i); [congruence|cbn [length]; lia]). specialize (BIG 1%nat ltac:(lia) ltac:(lia) C1).
        assert (TT : total i 1 = need i 1 0) by (unfold total; cbn [seq map nsum fold_right Nat.sub]; lia). rewrite TT in BIG.
        destruct (one_column_need i mx NE M) as [O1 O2]. pose proof (line_screen i) as LS. pose proof (pad_val i) as PV. cbv zeta in PV.
        assert (2 * (x_len mx + col_padding i) <= line_length i) by nia. destruct (N.eq_dec (x_len mx) 0) as [X0|X0]; [lia|]. specialize (O2 X0). lia.
      * destruct V as [V|[V|(p & c & V & VC)]].
        { exfalso. unfold init_info in I0. destruct (i_max_matches i <? 0)%Z; [discriminate|]. destruct (negb _ && _); [discriminate|]. cbv zeta in I0. fold (top i) in I0.
          assert (top i = 0%nat) by (unfold top, count; rewrite V; cbn [length]; destruct (N.ltb_spec (N.of_nat 0) (max_idx i)); lia). destruct T as (T1 & _ & _). lia. }
        { subst t. cbn in NZ. lia. }
        rewrite V, (find_limit_last p c VC). rewrite <- V. set (n := length t) in *. assert (LP : n = (length p + 1)%nat) by (unfold n; rewrite V, app_length; reflexivity).
        assert (NE : nth_error t (n - 1) = Some c). { rewrite LP. replace (length p + 1 - 1)%nat with (length p) by lia. rewrite V, nth_error_app2 by lia. rewrite Nat.sub_diag. reflexivity. }
        rewrite NE. destruct T as (T1 & T2 & T3). destruct (T2 _ _ NE) as (EL & EV & _). replace (n - 1 + 1)%nat with n in * by lia. destruct (EV VC) as (EA & ELn & ELe).
        assert (TOT : total i n + 1 <= i_screen i). { pose proof (line_total i n ltac:(lia)) as LT. pose proof (line_screen i). destruct ELe as [|[_ Q]]; lia. }
        assert (WS : map (fun ab => w16 (fst ab + snd ab - col_padding i)) (c_arr c) = map (need i n) (seq 0 n)).
        { rewrite EA, map_map. apply map_ext_in. intros k K. apply in_seq in K. cbn [fst snd]. rewrite (need_col i n k) by lia. rewrite N.add_sub. apply w16_small.
          assert (need i n k <= total i n). { unfold total. enough (need i n k <= nsum (map (need i n) (seq 0 n))) by lia.
            assert (G : forall l, In k l -> need i n k <= nsum (map (need i n) l)). { unfold nsum. induction l as [|y ys IH]; intros []; cbn [map fold_right]; [subst; lia|specialize (IH H); lia]. }
            apply G. apply in_seq. lia. }
          destruct SM as [S1 _]. lia. }
        rewrite WS. replace (map fst (c_arr c)) with (map (colA i (i_items i) n) (seq 0 n)) by (rewrite EA, map_map; reflexivity).
        exists mx, (map (need i n) (seq 0 n)), (map (colA i (i_items i) n) (seq 0 n)). split; [exact M|]. split; [|first [reflexivity|exact (FIN mx _ _ M)]].
        apply lay_variable; [exact BF| |exact TOT|intros n' H1 H2; apply BIG; lia]. split; [lia|]. clear - T1. unfold top in T1. lia.
  - destruct (loop_fixed i (i_items i) [] (mkmax 0 0 0) [] eq_refl M0) as (mx & L & M). change (length (@nil item)) with 0%nat in L. rewrite L. cbn [orb].
    destruct (maxes_small i mx SM M) as (A & B & C). rewrite !w16_small by lia. pose proof (fixed_count i mx) as FC. cbv zeta in FC.
    set (n := N.to_nat (if i_one_column i then 1 else N.max (line_length i / (x_len mx + col_padding i)) 1)) in *. exists mx, (repeat (x_len mx) n), (repeat (x_match mx) n).
    split; [exact M|]. split; [|first [reflexivity|exact (FIN mx _ _ M)]]. apply lay_fixed; [|apply FC|apply FC|apply FC].
    intros [_ X] _. exfalso. unfold init_info in I0. destruct (Z.ltb_spec (i_max_matches i) 0).
    { destruct X as [X|X]; [lia|]. lia. }
    destruct (Z.eqb_spec (i_max_matches i) 0); [discriminate|]. cbn [negb andb] in I0. destruct (Z.ltb_spec (i_max_matches i) (Z.of_nat (count i))); [lia|discriminate].
Qed.

Lemma nsum_repeat v n : nsum (repeat v n) = N.of_nat n * v.
Proof. unfold nsum. induction n as [|n IH]; [reflexivity|]. cbn [repeat fold_right]. rewrite IH. lia. Qed.
Lemma layout_fits i mx ws ms : layout i mx ws ms -> (1 < length ws)%nat -> nsum ws + N.of_nat (length ws - 1) * col_padding i + 1 <= i_screen i.
Proof.
  intros [n B N T G|n B N T O] L; [rewrite map_length, seq_length in *|rewrite repeat_length in *].
  - unfold total in T. lia.
  - specialize (T L). rewrite nsum_repeat. pose proof (line_screen i). replace (N.of_nat (n - 1)) with (N.of_nat n - 1) by lia. nia.
Qed.
Lemma layout_length i mx ws ms : layout i mx ws ms -> (1 <= length ws)%nat /\ length ms = length ws.
Proof. intros [n B N T G|n B N T O]; rewrite ?map_length, ?seq_length, ?repeat_length; lia. Qed.

(** The result: the layout itself, or one column of which the descriptions start at one place. *)
Lemma calculate_cases i w : small i -> calculate i = Some w -> exists mx ws ms, maxes_ok i (i_items i) mx /\ layout i mx ws ms /\
  (w_widths w = ws /\ w_match w = ms /\ w_desc_padding w = desc_padding i /\
     (w_right w = negb (no_right_justify i)) /\ (w_right w = true -> hd 0 ws < size_sub (i_screen i) 2) \/
   length ws = 1%nat /\ no_right_justify i = false /\ w = mkws [x_match mx + 2 + x_desc mx] [x_match mx] 4 false).
Proof.
  intros SM E. destruct (calculate_layout i SM) as (mx & ws & ms & M & L & C). exists mx, ws, ms. split; [exact M|]. split; [exact L|]. rewrite C in E. injection E as <-. cbv zeta.
  destruct (no_right_justify i) eqn:NRJ; cbn [negb andb].
  - left. cbn [w_widths w_match w_desc_padding w_right]. split; [reflexivity|]. split; [reflexivity|]. split; [reflexivity|]. split; [reflexivity|discriminate].
  - destruct (((1 <? length ws)%nat || (i_screen i * 4 / 10 <? x_match mx)) && (hd 0 ws <? size_sub (i_screen i) 2)) eqn:R; cbn [negb].
    + left. cbn [w_widths w_match w_desc_padding w_right]. split; [reflexivity|]. split; [reflexivity|]. split; [reflexivity|]. split; [reflexivity|]. intros _. apply andb_true_iff in R as [_ R]. lia.
    + right. assert (D : i_descs i = true) by (unfold no_right_justify in NRJ; destruct (i_descs i); [reflexivity|discriminate]).
      assert (L1 : length ws = 1%nat).
      { destruct (layout_length i mx ws ms L) as [G _]. destruct (Nat.ltb_spec 1 (length ws)) as [Q|Q]; [|lia]. exfalso. cbn [orb andb] in R. pose proof (layout_fits i mx ws ms L Q) as F.
        destruct ws as [|h [|h2 ws]]; cbn [length] in Q; try lia. cbn [hd nsum fold_right length] in *. unfold col_padding in F. rewrite D in F. unfold size_sub in R.
        destruct SM as [S1 _]. lia. }
      split; [exact L1|]. split; [reflexivity|]. rewrite L1. cbn [repeat]. unfold desc_padding. rewrite D, NRJ. reflexivity.
Qed.

(** C45: a layout is always found; with more than one column all of them and the blanks between fit and leave the last cell free. *)
Theorem columns_fit i : small i -> exists w, calculate i = Some w /\ (1 <= length (w_widths w))%nat /\ length (w_match w) = length (w_widths w) /\
  ((1 < length (w_widths w))%nat -> nsum (w_widths w) + N.of_nat (length (w_widths w) - 1) * col_padding i + 1 <= i_screen i).
Proof.
  intro SM. destruct (calculate_layout i SM) as (mx0 & ws0 & ms0 & _ & _ & C). match type of C with _ = Some ?x => set (w := x) in C end. exists w. split; [exact C|].
  destruct (calculate_cases i w SM C) as (mx & ws & ms & M & L & [(W & X & _)|(L1 & _ & W)]).
  - rewrite W, X. destruct (layout_length i mx ws ms L). split; [assumption|]. split; [assumption|]. apply layout_fits with (mx := mx) (ms := ms). exact L.
  - rewrite W. cbn [w_widths w_match length]. split; [lia|]. split; [reflexivity|]. lia.
Qed.

Lemma nth_const (v : N) n k : (k < n)%nat -> nth k (repeat v n) 0 = v.
Proof. revert k. induction n as [|n IH]; intros k H; [lia|]. destruct k; cbn [repeat nth]; [reflexivity|apply IH; lia]. Qed.
Lemma nth_map_seq0 (f : nat -> N) n k : (k < n)%nat -> nth k (map f (seq 0 n)) 0 = f k.
Proof. intro H. apply nth_error_nth. apply nth_map_seq. exact H. Qed.
Lemma item_in (i : input) l x : nth_error (i_items i) l = Some x -> In x (i_items i).
Proof. apply nth_error_In. Qed.

(** C45: every match has a place, and at its place the column is wide enough for it and its description. *)
Theorem matches_fit i w : small i -> calculate i = Some w -> let n := length (w_widths w) in
  (forall l, (l < count i)%nat -> exists r c, (r < rows (count i) n)%nat /\ (c < n)%nat /\ cell (i_vertical i) (count i) n r c = l) /\
  (forall r c x, (r < rows (count i) n)%nat -> (c < n)%nat -> nth_error (i_items i) (cell (i_vertical i) (count i) n r c) = Some x ->
     (w_right w = false -> fst x <= nth c (w_match w) 0) /\
     fst x + described i (w_desc_padding w + if w_right w then 2 else 0) x <= nth c (w_widths w) 0).
Proof.
  intros SM C n. destruct (calculate_cases i w SM C) as (mx & ws & ms & M & L & K).
  assert (N1 : (1 <= n)%nat). { destruct (layout_length i mx ws ms L). unfold n. destruct K as [(W & _)|(L1 & _ & W)]; rewrite W; [assumption|cbn; lia]. }
  split.
  { intros l H. destruct (column_cell (i_vertical i) (count i) n l ltac:(lia) H) as (r & R & E). exists r, (column_of (i_vertical i) (count i) l (n - 1)).
    split; [exact R|]. split; [|exact E]. pose proof (column_small (i_vertical i) (count i) l (n - 1) H). lia. }
  intros r c x R Cn E. pose proof (item_in i _ x E) as IX. destruct M as (M1 & M2 & M3).
  pose proof (longest_in fst _ x IX) as X1. pose proof (longest_in (desc_len i) _ x IX) as X2. pose proof (longest_in (fun x => fst x + desc_len i x) _ x IX) as X3. cbv beta in X3.
  rewrite <- M1 in X1. rewrite <- M2 in X2. rewrite <- M3 in X3. rewrite desc_len_described in X2, X3.
  destruct K as [(W & Q & P & RJ & _)|(L1 & NRJ & W)].
  - assert (PD : described i (w_desc_padding w + (if w_right w then 2 else 0)) x = described i (own_pad i) x).
    { rewrite P, RJ. unfold described, desc_padding, own_pad. destruct (i_descs i); [|reflexivity]. cbn [negb]. destruct (no_right_justify i); reflexivity. }
    rewrite PD, W, Q. unfold n in *. rewrite W in *. destruct L as [k B N T G|k B N T O]; [rewrite map_length, seq_length in *|rewrite repeat_length in *].
    + rewrite !nth_map_seq0 by exact Cn. pose proof (member_in i k c r x ltac:(lia) Cn R E) as MI.
      pose proof (longest_in fst _ x MI) as Y1. pose proof (longest_in (described i (own_pad i)) _ x MI) as Y2. pose proof (longest_in (fun x => fst x + described i (own_pad i) x) _ x MI) as Y3. cbv beta in Y3.
      split.
      * intro RF. rewrite RJ in RF. apply negb_false_iff in RF. unfold colA. rewrite (part_members i k c) by lia.
        rewrite (longest_ext (fa i) fst) by (intro y; unfold fa; rewrite RF; reflexivity). lia.
      * unfold need. cbv zeta. destruct (no_right_justify i); lia.
    + rewrite !nth_const by exact Cn. split; [intros _; exact X1|exact X3].
  - rewrite W. unfold n in Cn. rewrite W in Cn. cbn [w_widths w_match w_desc_padding w_right length] in *. assert (c = 0%nat) by lia. subst c. cbn [nth].
    split; [intros _; exact X1|]. change (4 + 0) with (own_pad i). lia.
Qed.

(** C45: no layout with more columns (up to 50) fits; with more than one column each is just as wide as needed. *)
Theorem columns_most i w : small i -> best_fit i -> i_items i <> [] -> calculate i = Some w -> let n := length (w_widths w) in
  (n <= 50)%nat /\
  (forall n' : nat, (n < n' <= 50)%nat -> (n' <= count i)%nat -> i_screen i <= total i n' + 1) /\
  ((1 < n)%nat -> w_widths w = map (need i n) (seq 0 n) /\ w_right w = negb (no_right_justify i)).
Proof.
  intros SM B NE C n. destruct (calculate_cases i w SM C) as (mx & ws & ms & M & L & [(W & Q & P & RJ & _)|(L1 & NRJ & W)]).
  - unfold n. rewrite W. destruct L as [k B' N T G|k F N T O]; [rewrite map_length, seq_length in *|rewrite repeat_length in *].
    + split; [lia|]. split; [exact G|]. intros _. split; [reflexivity|exact RJ].
    + destruct (F B NE) as [-> G]. split; [lia|]. split; [intros n' H1 H2; apply G; lia|lia].
  - unfold n. rewrite W. cbn [w_widths length]. split; [lia|]. split; [|lia]. intros n' H1 H2.
    destruct L as [k B' N T G|k F N T O]; [rewrite map_length, seq_length in L1|rewrite repeat_length in L1].
    + apply G; lia.
    + apply (proj2 (F B NE)); lia.
Qed.

(** ** Rows *)
Lemma nsum_skip (l : list N) j : (j < length l)%nat -> nsum (skipn j l) = nth j l 0 + nsum (skipn (S j) l).
Proof. revert j. induction l as [|x l IH]; intros [|j] H; cbn [length] in H; try lia; [reflexivity|]. cbn [skipn nth]. rewrite IH by lia. reflexivity. Qed.

Lemma row_cells_fit i w cols stride r : (forall j l x, (j < length (w_widths w))%nat -> l = cell (i_vertical i) (count i) (length (w_widths w)) r j -> nth_error (i_items i) l = Some x -> printed i w cols j x <= nth j (w_widths w) 0) ->
  (forall j, col_max i w cols j = nth j (w_widths w) 0) ->
  (forall j, cell (i_vertical i) (count i) (length (w_widths w)) r (S j) = (cell (i_vertical i) (count i) (length (w_widths w)) r j + stride)%nat) ->
  forall k j, (k + j = length (w_widths w))%nat ->
  row_cells i w cols stride k j (cell (i_vertical i) (count i) (length (w_widths w)) r j) <= nsum (skipn j (w_widths w)) + N.of_nat (k - 1) * col_padding i.
Proof.
  intros P CM CS. induction k as [|k IH]; intros j K; cbn [row_cells]; [lia|]. set (l := cell _ _ _ r j) in *.
  destruct (nth_error (i_items i) l) as [x|] eqn:E; [|apply N.le_0_l]. cbv zeta. pose proof (P j l x ltac:(lia) eq_refl E) as PP. rewrite nsum_skip by lia. rewrite CM.
  destruct (Nat.eqb_spec k 0) as [->|KZ]; cbn [negb andb]; [cbn [Nat.sub N.of_nat]; lia|]. destruct (Nat.ltb_spec (l + stride) (count i)); [|clear - PP; set (q := N.of_nat (S k - 1) * col_padding i); lia].
  specialize (IH (S j) ltac:(lia)). rewrite (CS j) in IH. fold l in IH. unfold padded. pose proof (pad_val i) as PV. cbv zeta in PV.
  destruct (N.leb_spec (nth j (w_widths w) 0 + col_padding i) (printed i w cols j x)); [lia|]. replace (N.of_nat (S k - 1)) with (1 + N.of_nat (k - 1)) by lia. rewrite N.mul_add_distr_r, N.mul_1_l. lia.
Qed.

(** C45: a row of several columns, or of one with descriptions, stays within the screen; a match alone in its row takes what it takes. *)
Theorem rows_fit i w cols r : small i -> calculate i = Some w -> i_screen i <= cols -> (i_descs i = true -> cols = i_screen i) ->
  (r < rows (count i) (length (w_widths w)))%nat -> ((1 < length (w_widths w))%nat -> i_descs i = true -> i_blanks i = false) ->
  row i w cols r + 1 <= cols \/ length (w_widths w) = 1%nat /\ exists x, nth_error (i_items i) r = Some x /\ row i w cols r = fst x.
Proof.
  intros SM C SC DC R NB. pose proof (matches_fit i w SM C) as [_ MF]. cbv zeta in MF.
  destruct (calculate_cases i w SM C) as (mx & ws & ms & M & L & K).
  assert (PR : w_right w = true -> forall j x, fst x + described i (w_desc_padding w + 2) x <= nth j (w_widths w) 0 -> printed i w cols j x <= nth j (w_widths w) 0).
  { intros RJ j x H. unfold printed, col_max, described in *. rewrite RJ in *. cbn [negb andb]. rewrite andb_false_r.
    destruct (i_descs i); cbn [andb]; [|lia]. destruct (N.eqb_spec (snd x) 0); cbn [negb]; [lia|]. cbv zeta. destruct (_ <? cols - 1); [|lia].
    assert (w_desc_padding w = 2). { destruct K as [(_ & _ & P & RR & _)|(_ & _ & W)]; [|rewrite W in RJ; discriminate]. rewrite P. unfold desc_padding.
      symmetry in RR. apply negb_true_iff in RR. rewrite RR. unfold no_right_justify in RR. destruct (i_descs i); [reflexivity|discriminate]. }
    lia. }
  assert (ROW : row i w cols r = row_cells i w cols (if i_vertical i then rows (count i) (length (w_widths w)) else 1%nat) (length (w_widths w)) 0 (cell (i_vertical i) (count i) (length (w_widths w)) r 0)).
  { unfold row, cell. cbv zeta. fold (rows (count i) (length (w_widths w))). destruct (i_vertical i); f_equal; lia. }
  destruct (Nat.ltb_spec 1 (length (w_widths w))) as [Q|Q].
  - (* several columns *)
    left. assert (RJ : i_descs i = true -> w_right w = true).
    { intro D. destruct K as [(_ & _ & _ & RR & _)|(_ & _ & W)]; [|rewrite W in Q; cbn in Q; lia]. rewrite RR. unfold no_right_justify. rewrite D, (NB Q D). reflexivity. }
    pose proof (columns_fit i SM) as (w' & C' & _ & _ & F). rewrite C in C'. injection C' as <-. specialize (F Q).
    rewrite ROW. enough (row_cells i w cols (if i_vertical i then rows (count i) (length (w_widths w)) else 1%nat) (length (w_widths w)) 0 (cell (i_vertical i) (count i) (length (w_widths w)) r 0)
      <= nsum (skipn 0 (w_widths w)) + N.of_nat (length (w_widths w) - 1) * col_padding i) by (cbn [skipn] in *; lia).
    apply row_cells_fit; [| | |lia].
    + intros j l x J -> E. destruct (MF r j x R J E) as [_ H]. destruct (i_descs i) eqn:D.
      * rewrite (RJ eq_refl) in H. apply (PR (RJ eq_refl)). exact H.
      * unfold printed. rewrite D. cbn [andb]. lia.
    + intro j. unfold col_max. destruct (i_descs i) eqn:D; [rewrite (RJ eq_refl)|]; reflexivity.
    + intro j. unfold cell. destruct (i_vertical i); lia.
  - (* one column *)
    assert (N1 : length (w_widths w) = 1%nat). { destruct (layout_length i mx ws ms L). destruct K as [(W & _)|(_ & _ & W)]; rewrite W in *; [lia|reflexivity]. }
    rewrite ROW, N1. cbn [row_cells]. assert (CE : cell (i_vertical i) (count i) 1 r 0 = r) by (unfold cell; destruct (i_vertical i); lia). rewrite CE.
    rewrite N1 in R. unfold rows in R. rewrite Nat.sub_diag, Nat.add_0_r, Nat.div_1_r in R.
    destruct (nth_error (i_items i) r) as [x|] eqn:E; [|apply nth_error_None in E; unfold count in R; lia]. cbn [Nat.eqb negb andb]. cbv zeta.
    destruct (i_descs i) eqn:D.
    2: { right. split; [reflexivity|]. exists x. split; [reflexivity|]. unfold printed. rewrite D. reflexivity. }
    destruct (N.eqb_spec (snd x) 0) as [Z|NZ].
    { right. split; [reflexivity|]. exists x. split; [reflexivity|]. unfold printed. rewrite Z. cbn [N.eqb negb]. rewrite andb_false_r. reflexivity. }
    destruct (w_right w) eqn:RJ.
    + destruct K as [(W & _ & _ & _ & H)|(_ & _ & W)]; [|rewrite W in RJ; discriminate]. specialize (H eq_refl).
      specialize (MF r 0%nat x). rewrite N1, CE in MF. destruct (MF ltac:(unfold rows; rewrite Nat.sub_diag, Nat.add_0_r, Nat.div_1_r; exact R) ltac:(lia) E) as [_ Y].
      rewrite <- W in H. pose proof (PR eq_refl 0%nat x Y) as Z. replace (nth 0 (w_widths w) 0) with (hd 0 (w_widths w)) in Z by (destruct (w_widths w); reflexivity).
      destruct (N.ltb_spec 1 (i_screen i)) as [S2|S2].
      * left. unfold size_sub in H. destruct SM as [S1 _]. lia.
      * right. split; [reflexivity|]. exists x. split; [reflexivity|]. unfold printed. rewrite D, RJ. cbn [andb]. destruct (N.eqb_spec (snd x) 0); [congruence|]. cbn [negb]. cbv zeta.
        destruct (N.ltb_spec (N.max (fst x + w_desc_padding w) (col_max i w cols 0 - (snd x + 2))) (cols - 1)); [|reflexivity]. specialize (DC eq_refl). lia.
    + unfold printed, col_max. rewrite D, RJ. cbn [andb negb]. destruct (N.eqb_spec (snd x) 0); [congruence|]. cbn [negb]. cbv zeta.
      destruct (N.ltb_spec (nth 0 (w_match w) 0 + w_desc_padding w) (cols - 1)); [left; lia|right; split; [reflexivity|exists x; auto]].
Qed.

(** Three blanks in some description and several columns: a row does not fit the screen (each column is padded to the whole width). *)
Definition i_blank := mkin true true true 60 0 false [(3,5);(8,10);(2,0);(5,8)].
Theorem rows_fit_refuted : exists i w r, small i /\ calculate i = Some w /\ (r < rows (count i) (length (w_widths w)))%nat /\
  (1 < length (w_widths w))%nat /\ nsum (w_widths w) + N.of_nat (length (w_widths w) - 1) * col_padding i + 1 <= i_screen i /\ i_screen i < row i w (i_screen i) r.
Proof.
  exists i_blank, (mkws [22; 17; 1] [8; 5; 1] 4 false), 0%nat.
  split; [split; [reflexivity|]; unfold i_blank; cbn [i_items i_screen]; apply Forall_cons; [reflexivity|]; apply Forall_cons; [reflexivity|]; apply Forall_cons; [reflexivity|]; apply Forall_cons; [reflexivity|apply Forall_nil]|].
  split; [vm_compute; reflexivity|]. split; [apply Nat.ltb_lt; reflexivity|]. split; [apply Nat.ltb_lt; reflexivity|]. split; [apply N.leb_le; vm_compute; reflexivity|apply N.ltb_lt; vm_compute; reflexivity].
Qed.
(** A match of 65534 cells: the 16-bit line length wraps and two columns are laid out on a screen of 80 cells. *)
Theorem columns_fit_refuted : exists i w, i_screen i < 60000 /\ Forall (fun x => fst x < 65536) (i_items i) /\ calculate i = Some w /\
  (1 < length (w_widths w))%nat /\ i_screen i < nsum (w_widths w).
Proof.
  exists (mkin false false true 80 0 false [(3,0);(65534,0)]), (mkws [3; 65534] [3; 65534] 0 false).
  split; [reflexivity|]. split; [cbn [i_items]; apply Forall_cons; [reflexivity|]; apply Forall_cons; [reflexivity|apply Forall_nil]|].
  split; [vm_compute; reflexivity|]. split; [apply Nat.ltb_lt; reflexivity|apply N.ltb_lt; vm_compute; reflexivity].
Qed.
(** Columns of one width and three blanks in some description: the descriptions start behind the longest match, so a column
    need not hold them. *)
Theorem aligned_descriptions_refuted : exists i w, small i /\ calculate i = Some w /\ w_right w = false /\ (1 < length (w_widths w))%nat /\
  exists x, In x (i_items i) /\ nth 0 (w_widths w) 0 < nth 0 (w_match w) 0 + w_desc_padding w + snd x.
Proof.
  exists (mkin true true true 80 (-1) false [(10,1);(1,10)]), (mkws [15; 15; 15; 15] [10; 10; 10; 10] 4 false).
  split; [split; [reflexivity|]; cbn [i_items i_screen]; apply Forall_cons; [reflexivity|]; apply Forall_cons; [reflexivity|apply Forall_nil]|].
  split; [vm_compute; reflexivity|]. split; [reflexivity|]. split; [apply Nat.ltb_lt; reflexivity|]. exists (1,10). split; [right; left; reflexivity|apply N.ltb_lt; reflexivity].
Qed.

(** ** Examples *)
Definition i_plain := mkin false false true 20 0 false [(3,0);(8,0);(2,0);(5,0);(1,0);(4,0);(7,0)].
Example plain_hyps : small i_plain /\ best_fit i_plain /\ i_items i_plain <> [].
Proof.
  split; [split; [reflexivity|]; apply Forall_forall; intros x X; cbn [i_plain i_items In] in X; repeat destruct X as [<-|X]; try reflexivity; contradiction|].
  split; [split; [reflexivity|left; reflexivity]|discriminate].
Qed.
Example plain_layout : calculate i_plain = Some (mkws [8; 7] [8; 7] 0 false). Proof. vm_compute. reflexivity. Qed.
Example plain_three : total i_plain 3 = 8 + 5 + 7 + 4. Proof. vm_compute. reflexivity. Qed.
Example plain_rows : map (row i_plain (mkws [8; 7] [8; 7] 0 false) 20) (seq 0 4) = [11; 14; 17; 5]. Proof. vm_compute. reflexivity. Qed.
Definition i_desc := mkin true false true 60 0 false [(3,5);(8,10);(2,0);(5,20)].
Example desc_hyps : small i_desc /\ best_fit i_desc /\ i_items i_desc <> [] /\ i_blanks i_desc = false.
Proof.
  split; [split; [reflexivity|]; apply Forall_forall; intros x X; cbn [i_desc i_items In] in X; repeat destruct X as [<-|X]; try reflexivity; contradiction|].
  split; [split; [reflexivity|left; reflexivity]|split; [discriminate|reflexivity]].
Qed.
Example desc_layout : calculate i_desc = Some (mkws [22; 29] [22; 29] 2 true). Proof. vm_compute. reflexivity. Qed.
Example desc_rows : map (row i_desc (mkws [22; 29] [22; 29] 2 true) 60) (seq 0 2) = [28; 55]. Proof. vm_compute. reflexivity. Qed.

Print Assumptions columns_fit.
Print Assumptions matches_fit.
Print Assumptions columns_most.
Print Assumptions rows_fit.
Print Assumptions rows_fit_refuted.
Print Assumptions columns_fit_refuted.
Print Assumptions aligned_descriptions_refuted.
