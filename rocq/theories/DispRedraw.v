(** Proofs: update_line makes the row show the new line. *)
From Verif Require Import Base DispModel DispSpec DispTerm DispDiff DispUpdate.
Open Scope nat_scope.

Lemma skipn_blanks k n : skipn k (blanks n) = blanks (n - k).
Proof. unfold blanks. revert k. induction n as [|n IH]; intros [|k]; cbn [skipn repeat Nat.sub]; try reflexivity. apply IH. Qed.
Lemma skipn_skipn' {A} (l : list A) : forall a b, skipn a (skipn b l) = skipn (a + b) l.
Proof. induction l as [|x l IH]; intros a [|b]; rewrite ?skipn_nil, ?Nat.add_0_r; try reflexivity. replace (a + S b) with (S (a + b)) by lia. cbn [skipn]. apply IH. Qed.
(** the row from a place right of everything on *)
Lemma blank_tail (a rest : list cell) k m w : length (a ++ rest) = w -> skipn k (a ++ rest) = blanks (w - k) -> k <= m -> length a <= m -> m <= w ->
  exists u, rest = u ++ blanks (w - m) /\ length a + length u = m.
Proof.
  intros L H Hk Ha Hm. rewrite app_length in L. exists (firstn (m - length a) rest). split.
  - rewrite <- (firstn_skipn (m - length a) rest) at 1. f_equal. assert (E : skipn (m - length a) rest = skipn m (a ++ rest)) by (rewrite skipn_app, (skipn_all2 a) by lia; reflexivity). rewrite E.
    replace m with ((m - k) + k) at 1 by lia. rewrite <- skipn_skipn', H, skipn_blanks. f_equal. lia.
  - rewrite firstn_length. lia.
Qed.

Section Redraw.
Variable gl : text -> list cluster.
Variable W : nat.
Variable ok : N -> Prop.
Variable solid : N -> bool.
Hypothesis It : iterates gl ok solid.
Local Notation okt := (okt ok).
Local Notation cells := (cells gl).
Local Notation term := (term gl W).
Local Notation fits := (fits gl W).
Local Notation exec := (exec gl W).
Local Notation clear_ops := (clear_ops W).

Lemma term_exec l row : on_terminal gl W l row = fst (exec l (row, 0)). Proof. reflexivity. Qed.
Lemma exec_move c l row x : exec (Move c :: l) (row, x) = exec l (row, c). Proof. reflexivity. Qed.
(** the operations *)
Lemma update_ops before wk rp o d : match o with Some ol => (l_x ol =? l_x d) && teqb (l_text ol) (l_text d) | None => false end = false ->
  update_line gl W before wk rp o d =
    let eol := negb wk && negb rp && l_toeol d in
    let pl := match o with Some ol => if negb wk && (l_x d <=? l_x ol) then diff_plan gl before eol rp ol d else whole_plan eol d | None => whole_plan eol d end in
    (match o with Some ol => shift0 (l_x ol) (l_x d) | None => [] end) ++ [Move (u_lcol pl)] ++ shift (u_delta pl) ++ [Print (skipn (u_lind pl) (firstn (u_rind pl) (l_text d)))]
    ++ clear_ops (u_eol pl) (u_rcol pl) (match o with Some ol => l_lastcol ol | None => W end) d.
Proof. intro H. unfold update_line. rewrite H. destruct o; reflexivity. Qed.
(** the whole line is printed *)
Lemma whole_ok d p row k eol : okt (l_text d) -> fits d -> whole p -> length p = l_x d -> length row = W -> (exists z, row = p ++ z) -> k <= W -> skipn k row = blanks (W - k) ->
  fst (exec ([Move (u_lcol (whole_plan eol d))] ++ shift (u_delta (whole_plan eol d)) ++ [Print (skipn (u_lind (whole_plan eol d)) (firstn (u_rind (whole_plan eol d)) (l_text d)))] ++ clear_ops (u_eol (whole_plan eol d)) (u_rcol (whole_plan eol d)) k d) (row, 0))
  = shown gl W p (l_text d).
Proof.
  intros Hd Hfit Hp Lp Lr (z & Er) Hk Hb. cbn [whole_plan u_lcol u_delta u_lind u_rind u_rcol u_eol]. cbn [shift skipn app Z.ltb Z.compare]. rewrite firstn_all.
  destruct (fits_cells gl W ok solid It d Hd Hfit) as (cb & Ec & Wb & El & Hw).
  assert (Ed : l_lastcol d + l_trail d = length p + length (cells (l_text d))) by (rewrite Ec, app_length, blanks_len; lia). rewrite Ed in *.
  set (m := Nat.max k (length p + length (cells (l_text d)))).
  destruct (blank_tail p z k m W) as (u & Eu & Lu); [rewrite <- Er; exact Lr|rewrite <- Er; exact Hb|unfold m; lia|unfold m; lia|unfold m; lia|].
  rewrite Er, Eu. rewrite exec_move. rewrite <- Lp.
  pose proof (tail_ok gl W ok solid It d p p (l_text d) u (blanks (W - m)) k eol Hd Hfit Hd Hp Lp Hp eq_refl (sound_blanks _) Hk) as T. cbn [app] in T. rewrite T; [|rewrite blanks_len; unfold m in *; lia|unfold m in *; lia|intros _; rewrite blanks_len; reflexivity].
  unfold shown. do 2 f_equal. rewrite blanks_app. f_equal. fold m. lia.
Qed.
Lemma clear_cursor d rcol k row c c' : fst (exec (clear_ops false rcol k d) (row, c)) = fst (exec (clear_ops false c' k d) (row, c')).
Proof. unfold DispUpdate.clear_ops. destruct (l_lastcol d <? k); reflexivity. Qed.

Theorem redraw_ok before wk o d p row : okt (l_text d) -> fits d -> one_face gl (l_text d) -> match o with Some ol => okt (l_text ol) /\ fits ol /\ (wk = true -> l_x ol <= l_x d) | None => True end ->
  whole p -> old_row gl W p o (l_x d) row ->
  (l_toeol d = false \/ match o with Some ol => l_lastcol ol <= l_lastcol d | None => True end \/ tidy (l_text d)) ->
  on_terminal gl W (update_line gl W before wk false o d) row = shown gl W p (l_text d).
Proof.
  intros Hd Hfit Hof Ho Hp ((Lr & Lp) & Hrow) Hsafe. rewrite term_exec.
  destruct (match o with Some ol => (l_x ol =? l_x d) && teqb (l_text ol) (l_text d) | None => false end) eqn:Es.
  { destruct o as [ol|]; [|discriminate]. unfold update_line. rewrite Es. cbn [DispUpdate.exec fold_left fst]. apply andb_true_iff in Es as [Ex Et]. apply teqb_eq in Et. destruct Hrow as [(q & -> & Eq)|(Hlt & _)]; [|lia].
    assert (length q = 0) by lia. destruct q; [|discriminate]. unfold shown. cbn [app]. rewrite Et. do 3 f_equal. cbn [length] in Eq. lia. }
  rewrite (update_ops before wk false o d Es). cbv zeta. destruct o as [ol|].
  2:{ cbn [app]. destruct Hrow as (z & Ez). apply whole_ok; try assumption; [exists z; exact Ez|lia|]. rewrite Nat.sub_diag. rewrite skipn_all2 by lia. reflexivity. }
  destruct Ho as (Hol & Hfo & Hwk). destruct (fits_cells gl W ok solid It ol Hol Hfo) as (co & Eco & Wco & Elo & Hwo).
  destruct (fits_cells gl W ok solid It d Hd Hfit) as (cd & Ecd & Wcd & Eld & Hwd).
  assert (Tot : l_lastcol d + l_trail d = length p + length (cells (l_text d))) by (rewrite Ecd, app_length, blanks_len; lia).
  assert (Toto : l_lastcol ol + l_trail ol = l_x ol + length (cells (l_text ol))) by (rewrite Eco, app_length, blanks_len; lia).
  set (eol := negb wk && negb false && l_toeol d). set (k := l_lastcol ol) in *.
  destruct (negb wk && (l_x d <=? l_x ol)) eqn:Ed.
  2:{ (* the whole line is printed *)
    assert (Hx : l_x ol <= l_x d) by (destruct wk; [auto|cbn [negb andb] in Ed; lia]). rewrite exec_app. assert (S0 : shift0 (l_x ol) (l_x d) = []) by (unfold shift0; replace (l_x d <? l_x ol) with false by lia; reflexivity). rewrite S0, exec_nil.
    apply whole_ok; try assumption; [|lia|].
    - destruct Hrow as [(q & -> & _)|(_ & z & -> & _)]; eexists; reflexivity.
    - destruct Hrow as [(q & Eq & Lq)|(_ & z & _ & Eb)]; [|exact Eb]. assert (length q = 0) by lia. destruct q; [|discriminate]. cbn [app] in Eq. rewrite Eq, Eco. rewrite <- app_assoc, blanks_app, app_assoc, skipn_app_l; [|rewrite app_length; lia]. f_equal. rewrite app_length, blanks_len. lia. }
  apply andb_true_iff in Ed as [Wk Hx]. assert (Hxle : l_x d <= l_x ol) by lia. destruct Hrow as [(q & Erow & Lq)|(Hlt & _)]; [|lia].
  destruct (diff_parts gl ok solid It before eol false ol d Hol Hd Hof) as (lt & om & dm & rt & Eo & Edt & Ol & Oom & Odm & Ort & Co & Cd & _ & PL). cbv zeta in PL. destruct PL as (P1 & P2 & P3 & P4 & P5 & P6).
  set (pl := diff_plan gl before eol false ol d) in *. rewrite P1, P2, P3, P4.
  (* the old line has been moved *)
  assert (So : sound (cells (l_text ol) ++ blanks (W - l_x ol - length (cells (l_text ol))))) by (apply sound_app; [apply (cells_whole gl ok solid It _ Hol)|apply sound_blanks]).
  destruct (shift0_ok gl W p q (cells (l_text ol) ++ blanks (W - l_x ol - length (cells (l_text ol)))) (l_x d) (l_x ol) 0 Hp So Lp (eq_sym Lq)) as (c' & E0).
  { rewrite app_length, blanks_len. lia. }
  rewrite exec_app, Erow, E0. clear E0. rewrite <- app_assoc, blanks_app. set (z := W - l_x ol - length (cells (l_text ol)) + length q).
  cbn [app]. rewrite exec_move. rewrite Co.
  assert (Wl : whole (p ++ cells lt)) by (apply whole_app; [exact Hp|apply (cells_whole gl ok solid It _ Ol)]).
  assert (Lo : length (cells (l_text ol)) = length (cells lt) + length (cells om) + length (cells rt)) by (rewrite Co, !app_length; lia).
  assert (Ld : length (cells (l_text d)) = length (cells lt) + length (cells dm) + length (cells rt)) by (rewrite Cd, !app_length; lia).
  destruct rt as [|c rt].
  - (* nothing in common on the right *)
    rewrite (cells_nil gl ok solid It), app_nil_r in *. cbn [shift app Z.ltb Z.compare length] in *.
    set (m := Nat.max k (length p + length (cells (l_text d)))).
    destruct (blank_tail (p ++ cells lt) (cells om ++ blanks z) k m W) as (u & Eu & Lu).
    + rewrite !app_length, blanks_len. unfold z. lia.
    + (* right of the old line there is nothing *)
      replace ((p ++ cells lt) ++ cells om ++ blanks z) with ((p ++ co) ++ blanks (l_trail ol + z)) by (rewrite <- blanks_app, <- !app_assoc; f_equal; rewrite (app_assoc co), <- Eco, Co, app_assoc; reflexivity).
      rewrite skipn_app, (skipn_all2 (p ++ co)) by (rewrite app_length; lia). cbn [app]. rewrite skipn_blanks. f_equal. rewrite app_length. assert (length (cells (l_text ol)) = length co + l_trail ol) by (rewrite Eco, app_length, blanks_len; reflexivity). unfold z. lia.
    + unfold m. lia.
    + rewrite app_length. unfold m. lia.
    + unfold m. lia.
    + replace (p ++ (cells lt ++ cells om) ++ blanks z) with ((p ++ cells lt) ++ u ++ blanks (W - m)) by (rewrite <- Eu, <- !app_assoc; reflexivity).
      pose proof (tail_ok gl W ok solid It d p (p ++ cells lt) dm u (blanks (W - m)) k (u_eol pl) Hd Hfit Odm Hp Lp Wl) as T. cbn [app] in T.
      rewrite app_length in T, Lu. replace (length p + length (cells (l_text d))) with (l_x d + length (cells lt) + length (cells dm)) in T by lia. replace (length p + length (cells lt)) with (l_x d + length (cells lt)) in T by lia.
      rewrite T; [|rewrite Cd, app_assoc; reflexivity|apply sound_blanks|lia|rewrite blanks_len; unfold m in *; lia|unfold m in *; lia|intros _; rewrite blanks_len; reflexivity].
      unfold shown. do 2 f_equal. rewrite blanks_app. f_equal. unfold m. lia.
  - set (r := c :: rt) in *.
    assert (M : exec (shift (Z.of_nat (length (cells dm)) - Z.of_nat (length (cells om))) ++ [Print dm]) ((p ++ cells lt) ++ cells om ++ cells r ++ blanks z, l_x d + length (cells lt)) = ((p ++ cells lt) ++ cells dm ++ cells r ++ blanks (W - length (p ++ cells lt) - length (cells dm) - length (cells r)), l_x d + length (cells lt) + length (cells dm))).
    { apply (middle_ok gl W ok solid It); try assumption; rewrite ?app_length; unfold z; lia. }
    replace (p ++ (cells lt ++ cells om ++ cells r) ++ blanks z) with ((p ++ cells lt) ++ cells om ++ cells r ++ blanks z) by (rewrite <- !app_assoc; reflexivity).
    change (shift (Z.of_nat (length (cells dm)) - Z.of_nat (length (cells om))) ++ Print dm :: clear_ops (u_eol pl) (l_x d + length (cells lt) + length (cells dm)) k d) with (shift (Z.of_nat (length (cells dm)) - Z.of_nat (length (cells om))) ++ [Print dm] ++ clear_ops (u_eol pl) (l_x d + length (cells lt) + length (cells dm)) k d).
    rewrite app_assoc, exec_app, M. clear M. rewrite app_length.
    assert (Er : (p ++ cells lt) ++ cells dm ++ cells r ++ blanks (W - (length p + length (cells lt)) - length (cells dm) - length (cells r)) = shown gl W p (l_text d)).
    { unfold shown. rewrite Cd, <- !app_assoc. do 5 f_equal. rewrite !app_length. lia. }
    assert (Noeol : fst (exec (clear_ops false (l_x d + length (cells lt) + length (cells dm)) k d) (shown gl W p (l_text d), l_x d + length (cells lt) + length (cells dm))) = shown gl W p (l_text d)).
    { rewrite (clear_cursor _ _ _ _ _ (length p + length (cells (l_text d)))). unfold shown at 1.
      set (m := Nat.max k (length p + length (cells (l_text d)))).
      replace (W - length p - length (cells (l_text d))) with ((m - (length p + length (cells (l_text d)))) + (W - m)) by (unfold m; lia). rewrite <- blanks_app.
      rewrite (clear_ok gl W ok solid It d p (blanks (m - (length p + length (cells (l_text d))))) (blanks (W - m)) k false _ Hd Hfit Hp Lp (sound_blanks _)); [|lia|rewrite !blanks_len; unfold m; lia|rewrite !blanks_len; unfold m; lia|discriminate|reflexivity].
      unfold shown. rewrite blanks_len, blanks_app. do 3 f_equal. unfold m. lia. }
    rewrite Er. destruct (u_eol pl) eqn:Ee; [|exact Noeol].
    specialize (P5 eq_refl). destruct Hsafe as [Ht|[Hk|Ht]].
    + unfold eol in P5. rewrite Ht in P5. rewrite andb_false_r in P5. discriminate P5.
    + unfold DispUpdate.clear_ops. fold k in Hk. replace (l_lastcol d <? k) with false by lia. reflexivity.
    + destruct (P6 eq_refl eq_refl Ht) as [X|(c0 & X & Hb)]; [discriminate X|]. unfold DispUpdate.clear_ops. destruct (l_lastcol d <? k) eqn:Elt; [|reflexivity].
      assert (Cr : cells r = [Blank]).
      { rewrite X. destruct c0 as [cp f]. unfold is_blank in Hb. cbn [fst snd] in Hb. apply andb_true_iff in Hb as [H1 H2]. apply N.eqb_eq in H1, H2. subst cp f. apply (cells_spaces gl ok solid It 1). }
      destruct (l_x d + length (cells lt) + length (cells dm) <? W) eqn:Erc; [|rewrite Cr in Ld; cbn [length] in Ld; lia].
      rewrite exec_one. cbn [DispSpec.term fst]. unfold shown at 1. rewrite Cd, Cr.
      replace (p ++ (cells lt ++ cells dm ++ [Blank]) ++ blanks (W - length p - length (cells lt ++ cells dm ++ [Blank]))) with ((p ++ cells lt ++ cells dm) ++ [Blank] ++ blanks (W - length p - length (cells lt ++ cells dm ++ [Blank]))) by (rewrite <- !app_assoc; reflexivity).
      rewrite firstn_app_l by (rewrite !app_length; lia).
      rewrite (whole_app p (cells lt ++ cells dm) Hp (whole_app _ _ (cells_whole gl ok solid It _ Ol) (cells_whole gl ok solid It _ Odm)) (blanks _)), (sound_blanks _).
      unfold shown. rewrite Cd, Cr. rewrite <- !app_assoc. do 3 f_equal. change [Blank] with (blanks 1). rewrite blanks_app. f_equal. rewrite !app_length, blanks_len. rewrite Cr in Ld. cbn [length] in Ld. lia.
Qed.

(** with a prompt on the right: it stays *)
Theorem redraw_right_prompt before wk ol d p row n v : okt (l_text d) -> fits d -> one_face gl (l_text d) -> okt (l_text ol) -> fits ol ->
  whole p -> length p = l_x d -> l_x ol = l_x d -> sound v -> row = p ++ cells (l_text ol) ++ blanks n ++ v -> length row = W ->
  length (cells (l_text d)) <= length (cells (l_text ol)) + n ->
  on_terminal gl W (update_line gl W before wk true (Some ol) d) row = p ++ cells (l_text d) ++ blanks (length (cells (l_text ol)) + n - length (cells (l_text d))) ++ v.
Proof.
  intros Hd Hfit Hof Hol Hfo Hp Lp Hx Hv Er Lr Hn. rewrite term_exec.
  destruct (fits_cells gl W ok solid It ol Hol Hfo) as (co & Eco & Wco & Elo & Hwo). destruct (fits_cells gl W ok solid It d Hd Hfit) as (cd & Ecd & Wcd & Eld & Hwd).
  destruct ((l_x ol =? l_x d) && teqb (l_text ol) (l_text d)) eqn:Es.
  { unfold update_line. rewrite Es. cbn [DispUpdate.exec fold_left fst]. apply andb_true_iff in Es as [_ Et]. apply teqb_eq in Et. rewrite Er, Et. do 4 f_equal. lia. }
  rewrite (update_ops before wk true (Some ol) d Es). cbv zeta. assert (S0 : shift0 (l_x ol) (l_x d) = []) by (unfold shift0; replace (l_x d <? l_x ol) with false by lia; reflexivity). rewrite S0. cbn [app].
  replace (negb wk && negb true && l_toeol d) with false by (destruct wk; reflexivity).
  assert (Tot : l_lastcol d + l_trail d = length p + length (cells (l_text d))) by (rewrite Ecd, app_length, blanks_len; lia).
  assert (Toto : length (cells (l_text ol)) = length co + l_trail ol) by (rewrite Eco, app_length, blanks_len; lia).
  assert (Lrow : length p + length (cells (l_text ol)) + n + length v = W) by (rewrite <- Lr, Er, !app_length, blanks_len; lia).
  set (k := l_lastcol ol) in *. set (m := Nat.max k (length p + length (cells (l_text d)))).
  (* both ways: print from column |a| on, then clear *)
  assert (G : forall lt dm, okt lt -> okt dm -> whole (p ++ cells lt) -> (exists x, cells (l_text ol) = cells lt ++ x) -> cells (l_text d) = cells lt ++ cells dm ->
    fst (exec ([Print dm] ++ clear_ops false (length p + length (cells (l_text d))) k d) (row, length (p ++ cells lt))) = p ++ cells (l_text d) ++ blanks (length (cells (l_text ol)) + n - length (cells (l_text d))) ++ v).
  { intros lt dm Olt Odm Wl (x & Ex) Ed. assert (Lx : length (cells (l_text ol)) = length (cells lt) + length x) by (rewrite Ex, app_length; reflexivity). assert (Ldm : length (cells (l_text d)) = length (cells lt) + length (cells dm)) by (rewrite Ed, app_length; reflexivity).
    set (mm := m - length p - length (cells lt)).
    assert (Esp : x ++ blanks n = firstn mm (x ++ blanks n) ++ blanks (length p + length (cells (l_text ol)) + n - m)).
    { rewrite <- (firstn_skipn mm (x ++ blanks n)) at 1. f_equal.
      assert (E : skipn mm (x ++ blanks n) = skipn (mm + length (cells lt)) (cells (l_text ol) ++ blanks n)) by (rewrite Ex, <- app_assoc; rewrite (skipn_app (mm + length (cells lt)) (cells lt)), (skipn_all2 (cells lt)) by lia; cbn [app]; f_equal; lia). rewrite E.
      rewrite Eco, <- app_assoc, blanks_app, skipn_app, (skipn_all2 co) by (unfold mm, m; lia). cbn [app]. rewrite skipn_blanks. f_equal. rewrite ?app_length, ?blanks_len. unfold mm, m. lia. }
    pose proof (tail_ok gl W ok solid It d p (p ++ cells lt) dm (firstn mm (x ++ blanks n)) (blanks (length p + length (cells (l_text ol)) + n - m) ++ v) k false Hd Hfit Odm Hp Lp Wl) as T.
    assert (Er' : row = (p ++ cells lt) ++ firstn mm (x ++ blanks n) ++ blanks (length p + length (cells (l_text ol)) + n - m) ++ v).
    { rewrite Er, Ex, <- !app_assoc. do 2 f_equal. rewrite (app_assoc x), Esp at 1. rewrite <- app_assoc, Ex. reflexivity. }
    assert (Lf : length (firstn mm (x ++ blanks n)) = m - length p - length (cells lt)).
    { rewrite firstn_length, app_length, blanks_len. unfold mm, m. lia. }
    rewrite Er'. rewrite T; [|rewrite Ed, app_assoc; reflexivity|apply sound_app; [apply whole_blanks|exact Hv]|lia|rewrite !app_length, Lf, blanks_len; unfold m; lia|rewrite app_length, Lf; unfold m; lia|discriminate].
    fold m. do 2 f_equal. rewrite app_assoc, blanks_app. do 2 f_equal. unfold m. lia. }
  destruct (negb wk && (l_x d <=? l_x ol)) eqn:Ed.
  - destruct (diff_parts gl ok solid It before false true ol d Hol Hd Hof) as (lt & om & dm & rt & Eo & Edt & Ol & Oom & Odm & Ort & Co & Cd & Hrt & PL). cbv zeta in PL. destruct PL as (P1 & P2 & P3 & P4 & P5 & P6). specialize (Hrt eq_refl). subst rt.
    set (pl := diff_plan gl before false true ol d) in *. rewrite P1, P2, P3, P4. cbn [shift app Z.ltb Z.compare]. rewrite (cells_nil gl ok solid It), app_nil_r in Co, Cd.
    destruct (u_eol pl) eqn:Ee; [specialize (P5 eq_refl); discriminate|]. rewrite exec_move.
    assert (Wl : whole (p ++ cells lt)) by (apply whole_app; [exact Hp|apply (cells_whole gl ok solid It _ Ol)]).
    specialize (G lt dm Ol Odm Wl (ex_intro _ _ Co) Cd). cbn [app] in G. rewrite app_length in G. rewrite Cd in G at 1. rewrite app_length in G. rewrite Nat.add_assoc, Lp in G. exact G.
  - cbn [whole_plan u_lcol u_delta u_lind u_rind u_rcol u_eol shift skipn app Z.ltb Z.compare]. rewrite firstn_all, exec_move, Tot.
    specialize (G [] (l_text d) ltac:(constructor) Hd). rewrite (cells_nil gl ok solid It), app_nil_r in G. specialize (G Hp (ex_intro _ _ eq_refl) eq_refl). rewrite Lp in G at 2. cbn [app] in G. rewrite <- Lp. rewrite <- Lp in G. exact G.
Qed.
End Redraw.
