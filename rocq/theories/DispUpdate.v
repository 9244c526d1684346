(** Proofs: the row after update_line. *)
From Verif Require Import Base DispModel DispSpec DispTerm DispDiff.
Open Scope nat_scope.

Section Update.
Variable gl : text -> list cluster.
Variable W : nat.
Variable ok : N -> Prop.
Variable solid : N -> bool.
Hypothesis It : iterates gl ok solid.
Local Notation okt := (okt ok).
Local Notation cells := (cells gl).
Local Notation term := (term gl W).
Local Notation fits := (fits gl W).

Definition exec (l : list op) (s : list cell * nat) : list cell * nat := fold_left (fun s a => term a s) l s.
Lemma exec_app a b s : exec (a ++ b) s = exec b (exec a s).
Proof. apply fold_left_app. Qed.
Lemma exec_cons a b s : exec (a :: b) s = exec b (term a s). Proof. reflexivity. Qed.
Lemma exec_one a s : exec [a] s = term a s. Proof. reflexivity. Qed.
Lemma exec_nil s : exec [] s = s. Proof. reflexivity. Qed.
(** the cells left of the padding, the padding *)
Lemma fits_cells d : okt (l_text d) -> fits d -> exists cb, cells (l_text d) = cb ++ blanks (l_trail d) /\ whole cb /\ l_lastcol d = l_x d + length cb /\ l_lastcol d + l_trail d <= W.
Proof.
  intros Hd (bd & Et & Ec & Hw). exists (cells bd). rewrite Et in *. apply okt_app in Hd as [Hb _]. rewrite (cells_split gl ok solid It _ _ Hb (okt_spaces gl ok solid It _) (solid_spaces gl ok solid It _)). rewrite (cells_spaces gl ok solid It).
  split; [reflexivity|]. split; [apply (cells_whole gl ok solid It); exact Hb|]. auto.
Qed.
(** what is cleared *)
Definition clear_ops (eol : bool) (rcol last : nat) (d : line) : list op :=
  if l_lastcol d <? last then if eol then (if rcol <? W then [Eol] else []) else [Move (l_lastcol d); Print (spaces (last - l_lastcol d))] else [].
Lemma blanks_app a b : blanks a ++ blanks b = blanks (a + b).
Proof. unfold blanks. symmetry. apply repeat_app. Qed.
Lemma blanks_len n : length (blanks n) = n. Proof. apply repeat_length. Qed.
(** the row shows the line; what is left over of the old one, up to column [last], is cleared *)
Lemma clear_ok d p u v last eol c : okt (l_text d) -> fits d -> whole p -> length p = l_x d -> sound v -> last <= W ->
  length p + length (cells (l_text d)) + length u + length v = W ->
  length p + length (cells (l_text d)) + length u = Nat.max last (length p + length (cells (l_text d))) ->
  (eol = true -> v = blanks (length v)) -> c = length p + length (cells (l_text d)) ->
  fst (exec (clear_ops eol c last d) (p ++ cells (l_text d) ++ u ++ v, c)) = p ++ cells (l_text d) ++ blanks (length u) ++ v.
Proof.
  intros Hd Hfit Hp Lp Hv Hl Lr Lu He ->. destruct (fits_cells d Hd Hfit) as (cb & Ec & Wb & Elc & Hw). rewrite Ec in *. rewrite app_length, blanks_len in *.
  set (tr := l_trail d) in *. set (lc := l_lastcol d) in *. unfold clear_ops. change (l_lastcol d) with lc.
  destruct (lc <? last) eqn:El.
  - destruct eol.
    + specialize (He eq_refl). destruct (length p + (length cb + tr) <? W) eqn:Er.
      * cbn [exec fold_left DispSpec.term fst]. rewrite app_assoc. rewrite firstn_app_l by (rewrite !app_length, blanks_len; lia). rewrite (whole_app _ _ Hp (whole_app _ _ Wb (whole_blanks tr)) (blanks _)). rewrite (sound_blanks _).
        rewrite He, blanks_app. rewrite <- app_assoc. do 3 f_equal. lia.
      * cbn [exec fold_left fst]. assert (length u = 0) by lia. destruct u; [reflexivity|discriminate].
    + cbn [exec fold_left DispSpec.term fst]. rewrite (cells_spaces gl ok solid It).
      destruct (Nat.le_gt_cases (length p + (length cb + tr)) last) as [G|G].
      * assert (E2 : p ++ (cb ++ blanks tr) ++ u ++ v = (p ++ cb) ++ (blanks tr ++ u) ++ v) by (rewrite <- !app_assoc; reflexivity). rewrite E2.
        rewrite over_ok; [|apply whole_app; assumption|apply whole_blanks|rewrite app_length; lia|rewrite app_length, !blanks_len; lia|exact Hv].
        replace (last - lc) with (tr + length u) by lia. rewrite <- blanks_app, <- !app_assoc. reflexivity.
      * assert (length u = 0) by lia. destruct u; [|discriminate]. cbn [app length blanks repeat].
        assert (E2 : p ++ (cb ++ blanks tr) ++ v = (p ++ cb) ++ blanks (last - lc) ++ blanks (tr - (last - lc)) ++ v) by (rewrite <- !app_assoc; do 2 f_equal; rewrite app_assoc, blanks_app; do 2 f_equal; lia). rewrite E2.
        apply over_ok; [apply whole_app; assumption|apply whole_blanks|rewrite app_length; lia|reflexivity|apply sound_app; [apply whole_blanks|exact Hv]].
  - cbn [exec fold_left fst]. assert (length u = 0) by lia. destruct u; [reflexivity|discriminate].
Qed.
(** text is printed up to the end of the line, then the rest is cleared *)
Lemma tail_ok d p a m u v last eol : okt (l_text d) -> fits d -> okt m -> whole p -> length p = l_x d -> whole a -> a ++ cells m = p ++ cells (l_text d) -> sound v -> last <= W ->
  length a + length u + length v = W -> length a + length u = Nat.max last (length p + length (cells (l_text d))) ->
  (eol = true -> v = blanks (length v)) ->
  fst (exec ([Print m] ++ clear_ops eol (length p + length (cells (l_text d))) last d) (a ++ u ++ v, length a)) = p ++ cells (l_text d) ++ blanks (Nat.max last (length p + length (cells (l_text d))) - (length p + length (cells (l_text d)))) ++ v.
Proof.
  intros Hd Hfit Hm Hp Lp Ha Ea Hv Hl Lr Lu He. assert (La : length a + length (cells m) = length p + length (cells (l_text d))) by (rewrite <- !app_length, Ea; reflexivity).
  cbn [app]. rewrite exec_cons. cbn [DispSpec.term].
  destruct (over_any a (cells m) u v (length a) Ha (cells_whole gl ok solid It m Hm) eq_refl ltac:(lia) Hv) as (u' & Lu' & ->).
  rewrite app_assoc, Ea, <- app_assoc. rewrite La. rewrite (clear_ok d p u' v last eol _ Hd Hfit Hp Lp Hv Hl) by (try assumption; try reflexivity; lia). do 4 f_equal. lia.
Qed.

Definition shift0 (ox dx : nat) : list op := if dx <? ox then Move dx :: shift (Z.of_nat dx - Z.of_nat ox) else [].
(** the old line is moved to where the new one starts *)
Lemma shift0_ok p q r dx ox c : whole p -> sound r -> length p = dx -> dx + length q = ox -> dx + length q + length r = W -> exists c', exec (shift0 ox dx) (p ++ q ++ r, c) = (p ++ r ++ blanks (length q), c').
Proof.
  intros Hp Hr Lp Lq Lr. unfold shift0. destruct (dx <? ox) eqn:E.
  - unfold shift. replace (0 <? Z.of_nat dx - Z.of_nat ox)%Z with false by lia. replace (Z.of_nat dx - Z.of_nat ox <? 0)%Z with true by lia. replace (Z.to_nat (- (Z.of_nat dx - Z.of_nat ox))) with (length q) by lia.
    rewrite !exec_cons, exec_nil. cbn [DispSpec.term]. exists dx. f_equal. rewrite firstn_app_l by lia. rewrite (app_assoc p q r), skipn_app_l by (rewrite app_length; lia). rewrite Hp. f_equal. replace (Nat.min (length q) (W - dx)) with (length q) by lia.
    destruct (mend_tail (blanks (length q)) (sound_blanks _) r 0 ltac:(lia)) as (r' & Lr' & Er). unfold sound in Hr. rewrite Er. f_equal.
    (* r is sound and what follows is blank *)
    clear - Hr Er. revert r' Er. assert (G : forall l k l', k <= length l -> mend k l = l -> mend k (l ++ blanks (length q)) = l' ++ blanks (length q) -> l' = l).
    { induction l as [|x l IH]; intros k l' Hk H1 H2.
      - cbn [length] in Hk. replace k with 0 in * by lia. cbn [app] in H2. rewrite (sound_blanks _) in H2. assert (length l' = 0) by (apply (f_equal (@length cell)) in H2; rewrite app_length in H2; lia). destruct l'; [reflexivity|discriminate].
      - assert (Ll : length l' = S (length l)) by (apply (f_equal (@length cell)) in H2; rewrite mend_len, !app_length in H2; cbn [length] in H2; lia). destruct l' as [|y l']; [discriminate|]. cbn [length] in *.
        destruct k as [|k]; cbn [app mend] in H1, H2.
        + destruct x as [|t w|].
          * injection H1 as H1. injection H2 as <- H2. f_equal. exact (IH 0 _ ltac:(lia) H1 H2).
          * destruct ((1 <=? w) && owed (w - 1) l) eqn:Eo; [|discriminate H1]. injection H1 as H1. apply andb_true_iff in Eo as [E1 Eo]. pose proof (owed_sound (w - 1) l [] eq_refl) as Hb. rewrite app_nil_r in Hb. specialize (Hb Eo).
            assert (Eo' : owed (w - 1) (l ++ blanks (length q)) = true) by (clear - Eo; revert l Eo; generalize (w - 1); intro n; induction n as [|n IH]; intros [|z l] H; cbn [owed app] in *; try reflexivity; try discriminate; destruct z; try discriminate; apply IH; exact H).
            rewrite E1, Eo' in H2. cbn [andb] in H2. injection H2 as <- H2. f_equal. exact (IH _ _ Hb H1 H2).
          * discriminate H1.
        + injection H1 as H1. injection H2 as <- H2. f_equal. exact (IH k _ ltac:(lia) H1 H2). }
    intros r' Er. apply (G r 0 r'); [lia|exact Hr|exact Er].
  - assert (length q = 0) by lia. destruct q; [|discriminate]. exists c. cbn [app length blanks repeat]. rewrite app_nil_r. reflexivity.
Qed.

(** cells are inserted or deleted so that the common right part gets to its new place, then the difference is printed *)
Lemma middle_ok a om dm rt z c : whole a -> okt om -> okt dm -> okt rt -> length a = c ->
  length a + length (cells om) + length (cells rt) + z = W -> length a + length (cells dm) + length (cells rt) <= W ->
  exec (shift (Z.of_nat (length (cells dm)) - Z.of_nat (length (cells om))) ++ [Print dm]) (a ++ cells om ++ cells rt ++ blanks z, c)
  = (a ++ cells dm ++ cells rt ++ blanks (W - length a - length (cells dm) - length (cells rt)), c + length (cells dm)).
Proof.
  intros Ha Hom Hdm Hrt Lc Lw Lw'. set (x := cells om). set (y := cells dm). set (r := cells rt). fold x y r in Lw, Lw'.
  assert (Wy : whole y) by (apply (cells_whole gl ok solid It dm Hdm)). assert (Wr : whole r) by (apply (cells_whole gl ok solid It rt Hrt)). assert (Wx : whole x) by (apply (cells_whole gl ok solid It om Hom)).
  rewrite exec_app. unfold shift. destruct (0 <? Z.of_nat (length y) - Z.of_nat (length x))%Z eqn:E1; [|destruct (Z.of_nat (length y) - Z.of_nat (length x) <? 0)%Z eqn:E2].
  - set (k := Z.to_nat (Z.of_nat (length y) - Z.of_nat (length x))). assert (Hk : length y = length x + k) by (unfold k; lia). clearbody k.
    rewrite !exec_one. cbn [DispSpec.term]. rewrite firstn_app_l, skipn_app_l by lia.
    assert (Ef : firstn (W - c) (blanks k ++ x ++ r ++ blanks z) = blanks k ++ x ++ r ++ blanks (z - k)).
    { replace z with ((z - k) + k) at 1 by lia. rewrite <- blanks_app. rewrite !app_assoc. rewrite firstn_app_l; [reflexivity|]. rewrite !app_length, !blanks_len. lia. }
    rewrite Ef, Ha. rewrite (whole_blanks k (x ++ r ++ blanks (z - k))), (Wx (r ++ blanks (z - k))), (Wr (blanks (z - k))), (sound_blanks (z - k)).
    fold y. f_equal. rewrite (app_assoc (blanks k) x). rewrite over_ok; [|exact Ha|exact Wy|lia|rewrite app_length, blanks_len; lia|apply sound_app; [exact Wr|apply sound_blanks]]. do 4 f_equal. lia.
  - set (k := Z.to_nat (- (Z.of_nat (length y) - Z.of_nat (length x)))). assert (Hk : length x = length y + k) by (unfold k; lia). clearbody k.
    rewrite !exec_one. cbn [DispSpec.term]. rewrite firstn_app_l by lia. replace (Nat.min k (W - c)) with k by lia.
    assert (Es : skipn (c + k) (a ++ x ++ r ++ blanks z) ++ blanks k = skipn k x ++ r ++ blanks (z + k)).
    { rewrite skipn_app. rewrite (skipn_all2 a) by lia. replace (c + k - length a) with k by lia. rewrite skipn_app. replace (k - length x) with 0 by lia. cbn [skipn app]. rewrite <- !app_assoc, blanks_app. reflexivity. }
    rewrite Es, Ha. assert (Sr : sound (r ++ blanks (z + k))) by (apply sound_app; [exact Wr|apply sound_blanks]). destruct (mend_tail _ Sr (skipn k x) 0 ltac:(lia)) as (x' & Lx & Ex). rewrite Ex. rewrite skipn_length in Lx.
    fold y. f_equal. rewrite over_ok; [|exact Ha|exact Wy|lia|lia|exact Sr]. do 4 f_equal. lia.
  - rewrite exec_nil, exec_one. cbn [DispSpec.term]. fold y. f_equal. rewrite over_ok; [|exact Ha|exact Wy|lia|lia|apply sound_app; [exact Wr|apply sound_blanks]]. do 4 f_equal. lia.
Qed.
End Update.
