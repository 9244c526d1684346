(** display_lines::parse lays the line out as DispRows.v says. *)
From Verif Require Import Base DispModel DispSpec DispRows.
Open Scope nat_scope.

Section Lay.
Variable W : nat.
Variable nls : bool.
Variable gs : list cluster.
Variables botlin col0 : nat.
Local Notation flow := (linked W).
Local Notation sok := (start_ok nls gs).
Local Notation sfrom := (starts_from nls gs).
Local Notation aps := (all_pieces nls).

Lemma span_app a b : span (a ++ b) = span a + span b.
Proof. induction a as [|p a IH]; [reflexivity|]. cbn [app span fold_right]. fold (span (a ++ b)) (span a). lia. Qed.
Lemma ptext_app a b : ptext (a ++ b) = ptext a ++ ptext b.
Proof. unfold ptext. rewrite map_app, concat_app. reflexivity. Qed.
Lemma flat_app a b : flat (a ++ b) = flat a ++ flat b. Proof. apply flat_map_app. Qed.
Lemma flat_one r : flat [r] = flat1 r. Proof. unfold flat. cbn [flat_map]. apply app_nil_r. Qed.
Lemma aps_app a b : aps (a ++ b) = aps a ++ aps b. Proof. apply flat_map_app. Qed.
Lemma blen_app a b : blen (a ++ b) = blen a + blen b.
Proof. induction a as [|c a IH]; [reflexivity|]. cbn [app blen]. lia. Qed.
Lemma bytes_app a b : bytes (a ++ b) = bytes a + bytes b.
Proof. unfold bytes. rewrite map_app, concat_app. apply blen_app. Qed.
Lemma bytes_one g : bytes [g] = blen (fst g).
Proof. unfold bytes. cbn [map concat]. rewrite app_nil_r. reflexivity. Qed.

Lemma linked_snoc R a b : flow (R ++ [a]) -> follows W a b -> flow (R ++ [a; b]).
Proof.
  induction R as [|r R IH]; cbn [app]; intros H F; [cbn; auto|]. destruct H as [H1 H2]. specialize (IH H2 F). destruct R as [|r' R]; cbn [app] in *; (split; [exact H1|exact IH]).
Qed.
Definition more (a a' : rowp) : Prop := l_x (fst a') = l_x (fst a) /\ l_start (fst a') = l_start (fst a) /\ l_newline (fst a) = false /\ exists m, snd a' = snd a ++ m.
Lemma linked_more R a a' : flow (R ++ [a]) -> more a a' -> flow (R ++ [a']).
Proof.
  intros H M. induction R as [|r R IH]; [cbn; auto|]. cbn [app] in *. destruct H as [H1 H2]. specialize (IH H2). destruct R as [|r' R]; cbn [app] in *; (split; [|exact IH]); [|exact H1].
  destruct M as (Mx & Ms & _ & m & Mp). unfold follows in *. rewrite Mx, Ms, Mp. destruct H1 as (A & B & C). split; [exact A|]. split; [exact B|]. destruct (l_newline (fst r)); [exact C|]. destruct C as [C1 C2]. split; [exact C1|]. destruct C2 as [C2|(p & q & C2 & C3)]; [left; exact C2|]. right. exists p, (q ++ m). rewrite C2. split; [reflexivity|exact C3].
Qed.
Lemma starts_snoc R r : forall f, sfrom f (R ++ [r]) <-> sfrom f R /\ sok (f ++ flat R) (l_start (fst r)).
Proof.
  induction R as [|a R IH]; intro f; cbn [app starts_from].
  - unfold flat. cbn [flat_map]. rewrite app_nil_r. tauto.
  - rewrite IH. rewrite <- app_assoc. assert (E : flat1 a ++ flat R = flat (a :: R)) by reflexivity. rewrite E. tauto.
Qed.
Lemma rev_case {A} (l : list A) : l = [] \/ exists l' z, l = l' ++ [z].
Proof. destruct l as [|x l]; [left; reflexivity|]. right. destruct (@exists_last A (x :: l) ltac:(discriminate)) as (l' & z & E). exists l', z. exact E. Qed.
Lemma at_more R a a' v c f q : at_piece (R ++ [a]) v c f q -> more a a' -> at_piece (R ++ [a']) v c f q.
Proof.
  intros (R1 & l & ps & R2 & p1 & p2 & E & Ev & Ep & Ef & Ec & Eq) (Mx & Ms & Mn & m & Mp).
  destruct (rev_case R2) as [->|(R2' & z & ->)].
  - apply app_inj_tail in E as [-> ->]. cbn [fst snd] in *. destruct a' as [l' ps']. cbn [fst snd] in *. exists R1, l', ps', [], p1, (p2 ++ m). split; [reflexivity|]. split; [exact Ev|]. split; [rewrite Mp, Ep, app_assoc; reflexivity|]. split; [exact Ef|]. split; [rewrite Mx; exact Ec|].
    destruct q as [z|]; [destruct Eq as (p3 & ->); exists (p3 ++ m); reflexivity|]. destruct Eq as [_ Eq]. congruence.
  - rewrite app_comm_cons, app_assoc in E. apply app_inj_tail in E as [-> ->]. exists R1, l, ps, (R2' ++ [a']), p1, p2. rewrite <- app_assoc. cbn [app]. auto 10.
Qed.
Lemma at_snoc R a v c f q : at_piece R v c f q -> at_piece (R ++ [a]) v c f q.
Proof. intros (R1 & l & ps & R2 & p1 & p2 & E & H). exists R1, l, ps, (R2 ++ [a]), p1, p2. split; [rewrite E, <- app_assoc; reflexivity|exact H]. Qed.

(** The state after the pieces F; k: where the cursor was put. *)
Definition marked (s : pst) (rs : list rowp) (k : option (list (option piece) * option piece)) : Prop :=
  match k with None => True | Some (f, q) => exists v, p_vpos s = botlin + v /\ at_piece rs v (p_cpos s) f q end.
Definition rinv (s : pst) (F : list (option piece)) (k : option (list (option piece) * option piece)) : Prop :=
  exists R ps, p_done s = repeat (fresh 0 0) botlin ++ map fst R
    /\ l_text (p_cur s) = ptext ps /\ l_trail (p_cur s) = 0 /\ l_newline (p_cur s) = false
    /\ p_col s = l_x (p_cur s) + span ps /\ p_col s <= W
    /\ Forall (laid W) R /\ flow (R ++ [(p_cur s, ps)])
    /\ match R ++ [(p_cur s, ps)] with r :: _ => l_x (fst r) = col0 | [] => False end
    /\ flat R ++ map Some ps = F /\ sfrom [] (R ++ [(p_cur s, ps)])
    /\ marked s (R ++ [(p_cur s, ps)]) k.

(** wrap if the piece does not fit, mark, add it *)
Definition wrap_for (w pos : nat) (s : pst) : pst := if W <? p_col s + w then next_line pos (on_cur (pad (W - p_col s)) (on_cur (close (p_col s) pos false) s)) else s.
Definition lay (b : bool) (pos : nat) (t : text) (w : nat) (s : pst) : pst := moved w 0 (on_cur (add t) (mark b (wrap_for w pos s))).

Lemma row_of (R : list rowp) s : p_done s = repeat (fresh 0 0) botlin ++ map fst R -> p_row s = botlin + length R.
Proof. intro E. unfold p_row. rewrite E, app_length, repeat_length, map_length. reflexivity. Qed.
Lemma head_more (R : list rowp) (a a' : rowp) : match R ++ [a] with r :: _ => l_x (fst r) = col0 | [] => False end -> l_x (fst a') = l_x (fst a) -> match R ++ [a'] with r :: _ => l_x (fst r) = col0 | [] => False end.
Proof. destruct R as [|r R]; cbn [app]; intros H E; [rewrite E; exact H|exact H]. Qed.
Lemma head_snoc (R : list rowp) (a b : rowp) : match R ++ [a] with r :: _ => l_x (fst r) = col0 | [] => False end -> match (R ++ [a]) ++ [b] with r :: _ => l_x (fst r) = col0 | [] => False end.
Proof. destruct R as [|r R]; cbn [app]; intro H; exact H. Qed.

Lemma lay_ok b pos t w s F k : rinv s F k -> 1 <= w <= W -> sok F pos -> rinv (lay b pos t w s) (F ++ [Some (t, w)]) (if b then Some (F, Some (t, w)) else k).
Proof.
  intros (R & ps & Ed & Et & Etr & En & Ec & Hc & HL & HF & Hh & Ef & Hs & Hm) Hw Hp. unfold lay, wrap_for.
  destruct (W <? p_col s + w) eqn:Ew.
  - (* a new row *)
    set (l1 := pad (W - p_col s) (close (p_col s) pos false (p_cur s))). assert (Ex1 : l_x l1 = l_x (p_cur s)) by reflexivity.
    assert (M : more (p_cur s, ps) (l1, ps)) by (split; [reflexivity|]; split; [reflexivity|]; split; [exact En|]; exists []; rewrite app_nil_r; reflexivity).
    set (l2 := add t (fresh pos 0)).
    assert (Cur : p_cur (moved w 0 (on_cur (add t) (mark b (next_line pos (on_cur (pad (W - p_col s)) (on_cur (close (p_col s) pos false) s)))))) = l2) by (destruct b; reflexivity).
    assert (Don : p_done (moved w 0 (on_cur (add t) (mark b (next_line pos (on_cur (pad (W - p_col s)) (on_cur (close (p_col s) pos false) s)))))) = p_done s ++ [l1]) by (destruct b; reflexivity).
    assert (Col : p_col (moved w 0 (on_cur (add t) (mark b (next_line pos (on_cur (pad (W - p_col s)) (on_cur (close (p_col s) pos false) s)))))) = w) by (destruct b; reflexivity).
    exists (R ++ [(l1, ps)]), [(t, w)]. rewrite Cur, Don, Col.
    split; [rewrite Ed, map_app, <- app_assoc; reflexivity|]. split; [cbn; rewrite app_nil_r; reflexivity|]. split; [reflexivity|]. split; [reflexivity|].
    split; [cbn; lia|]. split; [lia|].
    split. { apply Forall_app. split; [exact HL|]. constructor; [|constructor]. unfold laid. cbn [fst snd]. split; [|split].
      - unfold l1. cbn [pad close l_text l_trail]. rewrite Et, Etr. reflexivity.
      - unfold l1. cbn [pad close l_lastcol l_x]. lia.
      - unfold l1. cbn [pad close l_lastcol l_trail]. lia. }
    split. { rewrite <- app_assoc. cbn [app]. apply linked_snoc; [exact (linked_more _ _ _ HF M)|]. unfold follows. cbn [fst snd]. split; [reflexivity|]. split; [unfold l1, l2; cbn [pad close l_end l_newline add fresh l_start]; lia|].
      assert (N1 : l_newline l1 = false) by reflexivity. rewrite N1. unfold l1. cbn [pad close l_lastcol l_trail]. split; [lia|]. right. exists (t, w), []. cbn [snd]. split; [reflexivity|lia]. }
    split. { apply head_snoc. apply (head_more R (p_cur s, ps)); [exact Hh|reflexivity]. }
    assert (Fl : flat (R ++ [(l1, ps)]) = F). { rewrite flat_app, flat_one. unfold flat1. cbn [fst snd]. assert (N1 : l_newline l1 = false) by reflexivity. rewrite N1, app_nil_r. exact Ef. }
    split; [rewrite Fl; reflexivity|].
    split. { apply starts_snoc. split; [|cbn [app]; rewrite Fl; exact Hp]. apply starts_snoc. apply starts_snoc in Hs as [Hs1 Hs2]. split; [exact Hs1|exact Hs2]. }
    destruct b; cbn [mark].
    + exists (length (R ++ [(l1, ps)])). split.
      * unfold mark. cbn [on_cur moved p_vpos]. unfold p_row. cbn [next_line on_cur p_done p_cur]. rewrite Ed. rewrite !app_length, repeat_length, map_length. cbn [length]. lia.
      * exists (R ++ [(l1, ps)]), l2, [(t, w)], [], [], [(t, w)]. split; [reflexivity|]. split; [reflexivity|]. split; [reflexivity|]. split; [cbn [map]; rewrite app_nil_r; exact Fl|]. split; [reflexivity|]. exists []. reflexivity.
    + destruct k as [[f q]|]; [|exact Logic.I]. destruct Hm as (v & Ev & Hm). exists v. split; [exact Ev|]. apply at_snoc. apply (at_more _ _ _ _ _ _ _ Hm M).
  - (* in this row *)
    assert (Cur : p_cur (moved w 0 (on_cur (add t) (mark b s))) = add t (p_cur s)) by (destruct b; reflexivity).
    assert (Don : p_done (moved w 0 (on_cur (add t) (mark b s))) = p_done s) by (destruct b; reflexivity).
    assert (Col : p_col (moved w 0 (on_cur (add t) (mark b s))) = p_col s + w) by (destruct b; reflexivity).
    assert (M : more (p_cur s, ps) (add t (p_cur s), ps ++ [(t, w)])) by (split; [reflexivity|]; split; [reflexivity|]; split; [exact En|]; exists [(t, w)]; reflexivity).
    exists R, (ps ++ [(t, w)]). rewrite Cur, Don, Col.
    split; [exact Ed|]. split; [rewrite ptext_app; cbn [add l_text]; rewrite Et; unfold ptext; cbn [map concat fst]; rewrite app_nil_r; reflexivity|]. split; [exact Etr|]. split; [exact En|].
    split; [rewrite span_app; cbn [add l_x span fold_right snd]; lia|]. split; [lia|]. split; [exact HL|]. split; [exact (linked_more _ _ _ HF M)|]. split; [apply (head_more R (p_cur s, ps)); [exact Hh|reflexivity]|].
    split; [rewrite map_app, app_assoc, Ef; reflexivity|]. split; [apply starts_snoc; apply starts_snoc in Hs as [Hs1 Hs2]; split; [exact Hs1|exact Hs2]|].
    destruct b; cbn [mark].
    + exists (length R). split; [cbn [moved on_cur p_vpos]; apply row_of; exact Ed|]. exists R, (add t (p_cur s)), (ps ++ [(t, w)]), [], ps, [(t, w)]. split; [reflexivity|]. split; [reflexivity|]. split; [reflexivity|]. split; [exact Ef|]. split; [cbn [moved on_cur p_cpos add l_x]; exact Ec|]. exists []. reflexivity.
    + destruct k as [[f q]|]; [|exact Logic.I]. destruct Hm as (v & Ev & Hm). exists v. split; [exact Ev|]. apply (at_more _ _ _ _ _ _ _ Hm M).
Qed.
Lemma newline_ok point s F k : rinv s F k -> sok (F ++ [None]) (p_index s + 1) -> rinv (put_newline point s) (F ++ [None]) (if p_index s =? point then Some (F, None) else k).
Proof.
  intros (R & ps & Ed & Et & Etr & En & Ec & Hc & HL & HF & Hh & Ef & Hs & Hm) Hp. unfold put_newline. cbv zeta.
  set (l1 := close (p_col s) (p_index s) true (p_cur s)). set (b := p_index (on_cur (close (p_col s) (p_index s) true) s) =? point). change (p_index s =? point) with b.
  assert (M : more (p_cur s, ps) (l1, ps)) by (split; [reflexivity|]; split; [reflexivity|]; split; [exact En|]; exists []; rewrite app_nil_r; reflexivity).
  set (s2 := next_line _ _).
  assert (Ix : p_index s2 = p_index s + 1) by (unfold s2; destruct b; reflexivity).
  assert (Cur : p_cur s2 = fresh (p_index s + 1) 0) by (unfold s2; destruct b; reflexivity).
  assert (Don : p_done s2 = p_done s ++ [l1]) by (unfold s2; destruct b; reflexivity).
  assert (Col : p_col s2 = 0) by (unfold s2; destruct b; reflexivity).
  assert (Vp : p_vpos s2 = if b then p_row s else p_vpos s) by (unfold s2; destruct b; reflexivity).
  assert (Cp : p_cpos s2 = if b then p_col s else p_cpos s) by (unfold s2; destruct b; reflexivity).
  clearbody s2. exists (R ++ [(l1, ps)]), []. rewrite Cur, Don, Col.
  split; [rewrite Ed, map_app, <- app_assoc; reflexivity|]. split; [reflexivity|]. split; [reflexivity|]. split; [reflexivity|]. split; [reflexivity|]. split; [lia|].
  split. { apply Forall_app. split; [exact HL|]. constructor; [|constructor]. unfold laid, l1. cbn [fst snd close l_text l_trail l_lastcol l_x]. rewrite Etr. split; [rewrite Et; unfold spaces; cbn [repeat]; rewrite app_nil_r; reflexivity|]. split; lia. }
  split. { rewrite <- app_assoc. cbn [app]. apply linked_snoc; [exact (linked_more _ _ _ HF M)|]. unfold follows, l1. cbn [fst snd close l_newline l_end l_trail fresh l_x l_start]. auto. }
  split. { apply head_snoc. apply (head_more R (p_cur s, ps)); [exact Hh|reflexivity]. }
  assert (Fl : flat (R ++ [(l1, ps)]) = F ++ [None]). { rewrite flat_app, flat_one. unfold flat1, l1. cbn [fst snd close l_newline]. rewrite app_assoc, Ef. reflexivity. }
  split; [rewrite Fl; cbn [map]; rewrite app_nil_r; reflexivity|].
  split. { apply starts_snoc. split; [|cbn [app]; rewrite Fl; exact Hp]. apply starts_snoc. apply starts_snoc in Hs as [Hs1 Hs2]. split; [exact Hs1|exact Hs2]. }
  destruct b; unfold marked.
  - exists (length R). split; [rewrite Vp; apply row_of; exact Ed|]. exists R, l1, ps, [(fresh (p_index s + 1) 0, [])], ps, []. split; [rewrite <- app_assoc; reflexivity|]. split; [reflexivity|]. split; [rewrite app_nil_r; reflexivity|]. split; [exact Ef|]. split; [rewrite Cp; exact Ec|]. split; reflexivity.
  - destruct k as [[f q]|]; [|exact Logic.I]. destruct Hm as (v & Ev & Hm). exists v. split; [rewrite Vp; exact Ev|]. rewrite Cp. apply at_snoc. apply (at_more _ _ _ _ _ _ _ Hm M).
Qed.
(** changes that do not matter *)
Lemma rinv_moved n s F k : rinv s F k -> rinv (moved 0 n s) F k.
Proof. intros (R & ps & H). exists R, ps. cbn [moved p_done p_cur p_col]. rewrite Nat.add_0_r. exact H. Qed.
Lemma rinv_lead n s F k : rinv s F k -> rinv (on_cur (w_lead n) s) F k.
Proof.
  intros (R & ps & Ed & Et & Etr & En & Ec & Hc & HL & HF & Hh & Ef & Hs & Hm). exists R, ps. cbn [on_cur p_done p_cur p_col].
  assert (M : more (p_cur s, ps) (w_lead n (p_cur s), ps)) by (split; [reflexivity|]; split; [reflexivity|]; split; [exact En|]; exists []; rewrite app_nil_r; reflexivity).
  split; [exact Ed|]. split; [exact Et|]. split; [exact Etr|]. split; [exact En|]. split; [exact Ec|]. split; [exact Hc|]. split; [exact HL|]. split; [exact (linked_more _ _ _ HF M)|]. split; [apply (head_more R (p_cur s, ps)); [exact Hh|reflexivity]|]. split; [exact Ef|]. split; [apply starts_snoc; apply starts_snoc in Hs as [Hs1 Hs2]; split; [exact Hs1|exact Hs2]|].
  destruct k as [[f q]|]; [|exact Logic.I]. destruct Hm as (v & Ev & Hm). exists v. split; [exact Ev|]. apply (at_more _ _ _ _ _ _ _ Hm M).
Qed.

(** the parts of put *)
Lemma plain_lay point pos g s : put_plain W point pos g s = moved 0 (blen (fst g)) (lay ((p_index s <=? point) && (point <? p_index s + blen (fst g))) pos (fst g) (Z.to_nat (snd g)) s).
Proof.
  unfold put_plain, lay, wrap_for. cbv zeta. destruct (W <? p_col s + Z.to_nat (snd g)).
  - cbn [next_line on_cur p_index]. destruct ((p_index s <=? point) && (point <? p_index s + blen (fst g))); unfold moved, on_cur, mark, next_line; cbn [p_done p_cur p_col p_index p_vpos p_cpos]; rewrite ?Nat.add_0_r; reflexivity.
  - destruct ((p_index s <=? point) && (point <? p_index s + blen (fst g))); unfold moved, on_cur, mark; cbn [p_done p_cur p_col p_index p_vpos p_cpos]; rewrite ?Nat.add_0_r; reflexivity.
Qed.
Lemma pad0 l : pad 0 l = l.
Proof. destruct l as [a1 a2 a3 a4 a5 a6 a7 a8 a9]. unfold pad. cbn [l_text l_start l_end l_x l_lastcol l_lead l_trail l_newline l_toeol repeat]. rewrite app_nil_r, Nat.add_0_r. reflexivity. Qed.
Lemma on_cur_id s : mkP (p_done s) (p_cur s) (p_col s) (p_index s) (p_vpos s) (p_cpos s) = s. Proof. destruct s as [a1 a2 a3 a4 a5 a6]; reflexivity. Qed.
Lemma part_lay point c s wr : p_col s <= W -> put_part W point false c (s, wr) = (lay false (p_index s) [c] 1 s, wr || (W <=? p_col s)).
Proof.
  intro H. unfold put_part, lay, wrap_for. destruct (W <=? p_col s) eqn:E.
  - assert (E1 : W <? p_col s + 1 = true) by lia. rewrite E1. assert (E2 : W - p_col s = 0) by lia. rewrite E2. rewrite orb_true_r. cbn [andb mark]. unfold on_cur, moved, next_line. cbn [p_done p_cur p_col p_index p_vpos p_cpos]. rewrite pad0. rewrite Nat.add_0_r. reflexivity.
  - assert (E1 : W <? p_col s + 1 = false) by lia. rewrite E1, orb_false_r. reflexivity.
Qed.
Lemma part1_lay point c s : p_col s <= W -> put_part W point true c (mark (p_index s =? point) s, false) = (lay (p_index s =? point) (p_index s) [c] 1 s, W <=? p_col s).
Proof.
  intro H. unfold put_part, lay, wrap_for. assert (Ec : p_col (mark (p_index s =? point) s) = p_col s) by (destruct (p_index s =? point); reflexivity). rewrite Ec. destruct (W <=? p_col s) eqn:E.
  - assert (E1 : W <? p_col s + 1 = true) by lia. rewrite E1. assert (E2 : W - p_col s = 0) by lia. rewrite E2. cbn [andb]. unfold on_cur, moved, next_line. rewrite !pad0. destruct (p_index s =? point) eqn:Ep; cbn [mark p_done p_cur p_col p_index p_vpos p_cpos]; rewrite Ep; unfold mark; cbn [mark p_done p_cur p_col p_index p_vpos p_cpos]; reflexivity.
  - assert (E1 : W <? p_col s + 1 = false) by lia. rewrite E1. reflexivity.
Qed.
Lemma lay_index b pos t w s : p_index (lay b pos t w s) = p_index s.
Proof. unfold lay, wrap_for. destruct (W <? p_col s + w), b; cbn; lia. Qed.
Lemma rinv_col s F k : rinv s F k -> p_col s <= W.
Proof. intros (R & ps & _ & _ & _ & _ & _ & H & _). exact H. Qed.

(** one character *)
Lemma put_ok point pre g post s k :
  gs = pre ++ g :: post -> rinv s (aps pre) k -> p_index s = bytes pre -> 1 <= W -> fst g <> [] ->
  (newline nls g = true \/ (snd g < 0)%Z -> blen (fst g) = 1) -> (newline nls g = false -> (0 <= snd g)%Z -> 1 <= Z.to_nat (snd g) <= W) ->
  rinv (put W nls point (bytes pre) g s) (aps (pre ++ [g])) (if (bytes pre <=? point) && (point <? bytes pre + blen (fst g)) then match hd_error (pieces nls g) with Some q => Some (aps pre, q) | None => None end else k)
  /\ p_index (put W nls point (bytes pre) g s) = bytes (pre ++ [g]).
Proof.
  intros Eg H Ei HW Hne H1 H2. rewrite bytes_app, bytes_one, aps_app. assert (A1 : aps [g] = pieces nls g) by (unfold all_pieces; cbn [flat_map]; apply app_nil_r). rewrite A1. clear A1.
  assert (S0 : sok (aps pre) (bytes pre)) by (exists pre, (g :: post); auto).
  unfold put. destruct (fst g) as [|[c f] rest] eqn:Ef; [congruence|].
  assert (En : (c =? 10)%N && nls = newline nls g) by (unfold newline; rewrite Ef; apply andb_comm). rewrite En. destruct (newline nls g) eqn:Enl.
  - pose proof (H1 (or_introl eq_refl)) as Eb. rewrite Eb. assert (P : pieces nls g = [None]) by (unfold pieces; rewrite Enl; reflexivity). rewrite P. cbn [hd_error].
    assert (E2 : (bytes pre <=? point) && (point <? bytes pre + 1) = (p_index s =? point)) by (rewrite Ei; lia). rewrite E2. split.
    + apply newline_ok; [exact H|]. exists (pre ++ [g]), post. rewrite <- app_assoc. split; [exact Eg|]. rewrite bytes_app, bytes_one, Ef, Eb, Ei. split; [reflexivity|]. left. rewrite aps_app. unfold all_pieces at 3. cbn [flat_map]. rewrite P. reflexivity.
    + unfold put_newline. cbv zeta. destruct (p_index (on_cur (close (p_col s) (p_index s) true) s) =? point); cbn; lia.
  - assert (P : pieces nls g = if (snd g <? 0)%Z then [Some ([(94%N, f)], 1); Some ([(unctrl c, f)], 1)] else [Some (fst g, Z.to_nat (snd g))]) by (unfold pieces; rewrite Enl, Ef; reflexivity).
    destruct (snd g <? 0)%Z eqn:Ec.
    + assert (Hz : (snd g < 0)%Z) by lia. pose proof (H1 (or_intror Hz)) as Eb. rewrite Eb, P. cbn [hd_error].
      assert (E2 : (bytes pre <=? point) && (point <? bytes pre + 1) = (p_index s =? point)) by (rewrite Ei; lia). rewrite E2. clear E2.
      unfold put_ctrl. cbv zeta. rewrite part1_lay by exact (rinv_col _ _ _ H).
      pose proof (lay_ok (p_index s =? point) (p_index s) [(94%N, f)] 1 s _ _ H ltac:(lia) ltac:(rewrite Ei; exact S0)) as HA. set (sA := lay _ _ _ _ s) in *. assert (IA : p_index sA = p_index s) by apply lay_index.
      rewrite part_lay by exact (rinv_col _ _ _ HA).
      assert (SA : sok (aps pre ++ [Some ([(94%N, f)], 1)]) (p_index sA)).
      { exists pre, (g :: post). split; [exact Eg|]. split; [congruence|]. right. exists g, post, (Some ([(94%N, f)], 1)), (Some ([(unctrl c, f)], 1)). auto. }
      pose proof (lay_ok false (p_index sA) [(unctrl c, f)] 1 sA _ _ HA ltac:(lia) SA) as HB. set (sB := lay _ _ _ _ sA) in *. assert (IB : p_index sB = p_index sA) by apply lay_index.
      rewrite <- app_assoc in HB. cbn [app] in HB.
      destruct ((W <=? p_col s) || (W <=? p_col sA)).
      * split; [apply rinv_lead, rinv_moved; exact HB|]. cbn [on_cur moved p_index]. lia.
      * split; [apply rinv_moved; exact HB|]. cbn [moved p_index]. lia.
    + rewrite P. cbn [hd_error]. rewrite plain_lay. rewrite Ei, Ef. split.
      * apply rinv_moved. rewrite <- Ef. apply lay_ok; [exact H|apply H2; [reflexivity|lia]|exact S0].
      * cbn [moved p_index]. rewrite lay_index, Ei. reflexivity.
Qed.

(** the mark after the characters pre *)
Definition mark_of (point : nat) (pre : list cluster) (k : option (list (option piece) * option piece)) : Prop :=
  point < bytes pre -> exists a g b q, pre = a ++ g :: b /\ bytes a <= point < bytes a + blen (fst g) /\ hd_error (pieces nls g) = Some q /\ k = Some (aps a, q).
Lemma puts_ok point post : forall pre s k, gs = pre ++ post -> rinv s (aps pre) k -> mark_of point pre k -> p_index s = bytes pre -> 1 <= W ->
  Forall (fun g : cluster => fst g <> [] /\ (newline nls g = true \/ (snd g < 0)%Z -> blen (fst g) = 1) /\ (newline nls g = false -> (0 <= snd g)%Z -> 1 <= Z.to_nat (snd g) <= W)) post ->
  exists k', rinv (puts W nls point (bytes pre) post s) (aps gs) k' /\ mark_of point gs k' /\ p_index (puts W nls point (bytes pre) post s) = bytes gs.
Proof.
  induction post as [|g post IH]; intros pre s k Eg H Hk Ei HW HF.
  - rewrite app_nil_r in Eg. subst pre. exists k. cbn [puts]. auto.
  - inversion HF as [|? ? (Hne & H1 & H2) HF']; subst. cbn [puts]. destruct (put_ok point pre g post s k Eg H Ei HW Hne H1 H2) as [P1 P2].
    assert (Eb : bytes pre + blen (fst g) = bytes (pre ++ [g])) by (rewrite bytes_app, bytes_one; reflexivity). rewrite Eb in *.
    apply (IH (pre ++ [g]) _ _ ltac:(rewrite <- app_assoc; exact Eg) P1); [|exact P2|exact HW|exact HF'].
    unfold mark_of. intro Hp. destruct ((bytes pre <=? point) && (point <? bytes (pre ++ [g]))) eqn:E.
    + assert (Hd : exists q, hd_error (pieces nls g) = Some q). { unfold pieces. destruct (newline nls g); [eexists; reflexivity|]. destruct (fst g) as [|[c f] r]; [congruence|]. destruct (snd g <? 0)%Z; eexists; reflexivity. }
      destruct Hd as (q & Hq). exists pre, g, [], q. rewrite Hq. split; [reflexivity|]. split; [lia|]. auto.
    + destruct (Hk ltac:(lia)) as (a & g' & b & q & E1 & E2 & E3 & E4). exists a, g', (b ++ [g]), q. split; [rewrite E1, <- app_assoc; reflexivity|]. auto.
Qed.
End Lay.

Section Parse.
Variable gl : text -> list cluster.
Variable W : nat.
Theorem parse_layout nls botlin col buffer point :
  1 <= W -> col <= W -> point <= bytes (gl buffer) ->
  Forall (fun g : cluster => fst g <> [] /\ (newline nls g = true \/ (snd g < 0)%Z -> blen (fst g) = 1) /\ (newline nls g = false -> (0 <= snd g)%Z -> 1 <= Z.to_nat (snd g) <= W)) (gl buffer) ->
  exists rs v, let '(lines, vpos, cpos) := parse gl W nls botlin col buffer point in
    lines = repeat (fresh 0 0) botlin ++ map fst rs /\ layout W nls (gl buffer) col rs /\ vpos = botlin + v /\ cursor_at nls (gl buffer) rs point v cpos.
Proof.
  intros HW Hcol Hp HF. unfold parse. set (gs := gl buffer) in *.
  assert (H0 : rinv W nls gs botlin col (parse_start botlin col) (all_pieces nls []) None).
  { exists [], []. cbn [parse_start p_done p_cur p_col map app flat flat_map]. split; [rewrite app_nil_r; reflexivity|]. split; [reflexivity|]. split; [reflexivity|]. split; [reflexivity|]. split; [cbn; lia|]. split; [exact Hcol|]. split; [constructor|]. split; [cbn; auto|]. split; [reflexivity|]. split; [reflexivity|]. split; [|exact Logic.I]. cbn. split; [|exact Logic.I]. exists [], gs. auto. }
  destruct (puts_ok W nls gs botlin col point gs [] (parse_start botlin col) None eq_refl H0) as (k & H & Hk & Ei); [intro X; cbn in X; lia|reflexivity|exact HW|exact HF|].
  change (bytes []) with 0 in *. set (s := puts W nls point 0 gs (parse_start botlin col)) in *. clearbody s.
  destruct H as (R & ps & Ed & Et & Etr & En & Ec & Hc & HL & HFl & Hh & Ef & Hs & Hm).
  unfold parse_end. cbv zeta. set (l1 := close (p_col s) (p_index s) false (p_cur s)).
  assert (M : more (p_cur s, ps) (l1, ps)) by (split; [reflexivity|]; split; [reflexivity|]; split; [exact En|]; exists []; rewrite app_nil_r; reflexivity).
  assert (L1 : laid W (l1, ps)) by (unfold laid, l1; cbn [fst snd close l_text l_trail l_lastcol l_x]; rewrite Etr; split; [rewrite Et; unfold spaces; cbn [repeat]; rewrite app_nil_r; reflexivity|]; split; lia).
  assert (F1 : flat (R ++ [(l1, ps)]) = all_pieces nls gs) by (rewrite flat_app, flat_one; unfold flat1, l1; cbn [fst snd close l_newline]; rewrite app_nil_r; exact Ef).
  assert (S1 : starts_from nls gs [] (R ++ [(l1, ps)])) by (apply starts_snoc; apply starts_snoc in Hs as [Hs1 Hs2]; split; [exact Hs1|exact Hs2]).
  assert (K1 : point < bytes gs -> exists v, p_vpos s = botlin + v /\ cursor_at nls gs (R ++ [(l1, ps)]) point v (p_cpos s)).
  { intro Hlt. destruct (Hk Hlt) as (a & g & b & q & E1 & E2 & E3 & E4). rewrite E4 in Hm. destruct Hm as (v & Ev & Hm). exists v. split; [exact Ev|]. left. exists a, g, b, q. split; [exact E1|]. split; [exact E2|]. split; [exact E3|]. exact (at_more _ _ _ _ _ _ _ Hm M). }
  set (b0 := W <=? l_lastcol (p_cur (on_cur (close (p_col s) (p_index s) false) s)) + l_trail (p_cur (on_cur (close (p_col s) (p_index s) false) s))).
  assert (Eb0 : b0 = (W <=? p_col s)) by (unfold b0; cbn [on_cur p_cur close l_lastcol l_trail]; rewrite Etr, Nat.add_0_r; reflexivity). rewrite Eb0. clear b0 Eb0.
  destruct (W <=? p_col s) eqn:Ew.
  - set (l2 := close 0 (p_index s) false (fresh (p_index s) 0)). exists (R ++ [(l1, ps)] ++ [(l2, [])]).
    assert (Lay : layout W nls gs col (R ++ [(l1, ps)] ++ [(l2, [])])).
    { rewrite app_assoc. constructor.
      - apply Forall_app. split; [apply Forall_app; split; [exact HL|constructor; [exact L1|constructor]]|]. constructor; [|constructor]. unfold laid, l2. cbn. split; [reflexivity|lia].
      - rewrite <- app_assoc. cbn [app]. apply linked_snoc; [exact (linked_more _ _ _ _ HFl M)|]. unfold follows, l1, l2. cbn [fst snd close fresh l_x l_start l_newline l_end l_lastcol l_trail]. rewrite Etr. split; [reflexivity|]. split; [lia|]. split; [lia|]. left. reflexivity.
      - apply head_snoc. apply (head_more col R (p_cur s, ps)); [exact Hh|reflexivity].
      - rewrite flat_app, F1. cbn. apply app_nil_r.
      - apply starts_snoc. split; [exact S1|]. cbn [app]. rewrite F1. exists gs, []. rewrite app_nil_r. split; [reflexivity|]. split; [exact Ei|]. left. reflexivity.
      - exists (R ++ [(l1, ps)]), l2, []. split; [reflexivity|]. split; [reflexivity|]. split; [reflexivity|]. split; [cbn; lia|]. exact Ei. }
    cbn [on_cur next_line p_index]. destruct (p_index s =? point) eqn:Ep; cbn [mark].
    + exists (length (R ++ [(l1, ps)])). cbn [p_done p_cur p_vpos p_cpos on_cur next_line p_col]. split; [rewrite Ed; cbn [app]; rewrite !map_app; cbn [map fst]; rewrite <- !app_assoc; reflexivity|]. split; [exact Lay|].
      split. { unfold p_row. cbn [p_done on_cur next_line p_cur]. rewrite Ed, !app_length, repeat_length, map_length. cbn [length]. lia. }
      right. split; [lia|]. exists (R ++ [(l1, ps)]), l2, []. rewrite <- app_assoc. split; [reflexivity|]. split; reflexivity.
    + destruct (K1 ltac:(lia)) as (v & Ev & Kv). exists v. cbn [p_done p_cur p_vpos p_cpos on_cur next_line]. split; [rewrite Ed; cbn [app]; rewrite !map_app; cbn [map fst]; rewrite <- !app_assoc; reflexivity|]. split; [exact Lay|]. split; [exact Ev|].
      destruct Kv as [(a & g & b & q & E1 & E2 & E3 & E4)|[Kv _]]; [|lia]. left. exists a, g, b, q. split; [exact E1|]. split; [exact E2|]. split; [exact E3|]. rewrite app_assoc. apply at_snoc. exact E4.
  - exists (R ++ [(l1, ps)]).
    assert (Lay : layout W nls gs col (R ++ [(l1, ps)])).
    { constructor.
      - apply Forall_app. split; [exact HL|constructor; [exact L1|constructor]].
      - exact (linked_more _ _ _ _ HFl M).
      - apply (head_more col R (p_cur s, ps)); [exact Hh|reflexivity].
      - exact F1.
      - exact S1.
      - exists R, l1, ps. split; [reflexivity|]. split; [reflexivity|]. split; [exact Etr|]. split; [unfold l1; cbn [close l_lastcol]; lia|]. exact Ei. }
    cbn [on_cur p_index]. destruct (p_index s =? point) eqn:Ep; cbn [mark].
    + exists (length R). cbn [p_done p_cur p_vpos p_cpos on_cur p_col]. split; [rewrite Ed, map_app, <- app_assoc; reflexivity|]. split; [exact Lay|]. split; [unfold p_row; cbn [p_done on_cur]; rewrite Ed, app_length, repeat_length, map_length; reflexivity|].
      right. split; [lia|]. exists R, l1, ps. split; [reflexivity|]. split; [reflexivity|]. exact Ec.
    + destruct (K1 ltac:(lia)) as (v & Ev & Kv). exists v. cbn [p_done p_cur p_vpos p_cpos on_cur next_line]. split; [rewrite Ed, map_app, <- app_assoc; reflexivity|]. split; [exact Lay|]. split; [exact Ev|exact Kv].
Qed.
End Parse.
