(** The row of the cursor is shown, and the markers. *)
From Verif Require Import Base DispModel DispSpec DispTerm DispMarks.
Open Scope nat_scope.

(** ** The rows shown *)
Section Scroll.
Variable W : nat.
Lemma scroll_visible cnt vpos cpos off x_of top : vpos < cnt -> (off = cnt - 1 \/ 1 <= off < cnt) ->
  let t := scroll_top W 0 cnt vpos cpos off x_of top in t <= vpos <= t + off /\ t + off <= cnt - 1.
Proof.
  intros Hv Ho. cbv zeta. unfold scroll_top. replace (top <? 0) with false by lia. cbn [Nat.add].
  set (t1 := if vpos <? top then vpos else top). set (t2 := if t1 + off <? vpos then vpos - off else t1). set (t3 := if cnt <? t2 + off + 1 then cnt - 1 - off else t2).
  assert (H1 : t1 <= vpos) by (unfold t1; destruct (vpos <? top) eqn:E; lia). assert (H2 : t2 <= vpos <= t2 + off) by (unfold t2; destruct (t1 + off <? vpos) eqn:E; lia).
  assert (H3 : t3 <= vpos <= t3 + off /\ t3 + off <= cnt - 1) by (unfold t3; destruct (cnt <? t2 + off + 1) eqn:E; lia). clearbody t3.
  destruct ((0 <? t3) && (t3 =? vpos)) eqn:E1; [destruct ((x_of t3 <=? cpos) && (cpos <? x_of t3 + 1)) eqn:E2; lia|].
  destruct ((t3 + off <? cnt - 1) && (t3 + off =? vpos)) eqn:E2; [destruct ((W <=? cpos + 1) && (cpos <? W)) eqn:E3; lia|]. lia.
Qed.
(** no scrolling without need *)
Lemma scroll_stays cnt vpos cpos off x_of top : vpos < cnt -> top <= vpos <= top + off -> top + off <= cnt - 1 ->
  (0 < top -> vpos = top -> ~ x_of top <= cpos < x_of top + 1) -> (top + off < cnt - 1 -> vpos = top + off -> cpos + 1 < W \/ W <= cpos) ->
  scroll_top W 0 cnt vpos cpos off x_of top = top.
Proof.
  intros Hvc Hv Hc Ha Hb. unfold scroll_top. cbv zeta. cbn [Nat.add]. replace (top <? 0) with false by lia. cbv iota. replace (vpos <? top) with false by lia. cbv iota. replace (top + off <? vpos) with false by lia. cbv iota. replace (cnt <? top + off + 1) with false by lia. cbv iota.
  destruct ((0 <? top) && (top =? vpos)) eqn:E1.
  - assert (E : (x_of top <=? cpos) && (cpos <? x_of top + 1) = false) by lia. rewrite E. reflexivity.
  - destruct ((top + off <? cnt - 1) && (top + off =? vpos)) eqn:E2; [|reflexivity]. assert (E : (W <=? cpos + 1) && (cpos <? W) = false) by lia. rewrite E. reflexivity.
Qed.
(** the cursor is not on the marker of the first row *)
Lemma scroll_unmarked cnt vpos cpos off x_of top : vpos < cnt -> 1 <= off < cnt -> 2 <= W ->
  let t := scroll_top W 0 cnt vpos cpos off x_of top in ~ (0 < t /\ vpos = t /\ x_of t = cpos /\ cpos = 0) .
Proof.
  intros Hv Ho HW. cbv zeta. unfold scroll_top. replace (top <? 0) with false by lia. cbn [Nat.add].
  set (t1 := if vpos <? top then vpos else top). set (t2 := if t1 + off <? vpos then vpos - off else t1). set (t3 := if cnt <? t2 + off + 1 then cnt - 1 - off else t2).
  assert (H1 : t1 <= vpos) by (unfold t1; destruct (vpos <? top) eqn:E; lia). assert (H2 : t2 <= vpos <= t2 + off) by (unfold t2; destruct (t1 + off <? vpos) eqn:E; lia).
  assert (H3 : t3 <= vpos <= t3 + off /\ t3 + off <= cnt - 1) by (unfold t3; destruct (cnt <? t2 + off + 1) eqn:E; lia). clearbody t3.
  destruct ((0 <? t3) && (t3 =? vpos)) eqn:E1.
  - destruct ((x_of t3 <=? cpos) && (cpos <? x_of t3 + 1)) eqn:E2; lia.
  - destruct ((t3 + off <? cnt - 1) && (t3 + off =? vpos)) eqn:E2; [destruct ((W <=? cpos + 1) && (cpos <? W)) eqn:E3; lia|]. lia.
Qed.
End Scroll.

(** ** The markers *)
Section Marks.
Variable gl : text -> list cluster.
Variable W : nat.
Variable ok : N -> Prop.
Variable solid : N -> bool.
Hypothesis It : iterates gl ok solid.
Variable cw : N -> nat.

Lemma okt_concat t k : okt ok t -> okt ok (concat (map fst (skipn k (gl t)))).
Proof. intro H. pose proof (it_concat _ _ _ It t H) as E. rewrite <- (firstn_skipn k (gl t)), map_app, concat_app in E. rewrite <- E in H. apply okt_app in H. tauto. Qed.
Lemma okt_cut t k : okt ok t -> okt ok (concat (map fst (firstn k (gl t)))).
Proof. intro H. pose proof (it_concat _ _ _ It t H) as E. rewrite <- (firstn_skipn k (gl t)), map_app, concat_app in E. rewrite <- E in H. apply okt_app in H. tauto. Qed.
Lemma ok_ascii c f : (0 < c < 128)%N -> okt ok [(c, f)].
Proof. intro H. constructor; [|constructor]. apply (it_ok _ _ _ It). exact H. Qed.
(** if the first character takes one column, it is replaced and nothing else changes *)
Lemma top_mark_ok l g r : okt ok (l_text l) -> gl (l_text l) = g :: r -> wid g = 1 -> starts_solid solid (concat (map fst r)) ->
  cells gl (l_text (top_mark gl l)) = Glyph [(60%N, f_scroll)] 1 :: skipn 1 (cells gl (l_text l)) /\ l_x (top_mark gl l) = l_x l /\ l_lastcol (top_mark gl l) = l_lastcol l /\ l_trail (top_mark gl l) = l_trail l.
Proof.
  intros Hok Eg Hw Hs. unfold top_mark. rewrite Eg, Hw. cbn [Nat.sub with_text l_text l_x l_lastcol l_trail]. change (spaces 0) with (@nil tch). rewrite app_nil_r, Nat.add_0_r. split; [|auto].
  change ((60%N, f_scroll) :: concat (map fst r)) with ([(60%N, f_scroll)] ++ concat (map fst r)). pose proof (okt_concat _ 1 Hok) as Hr. pose proof (it_rest _ _ _ It _ 1 Hok) as Er. rewrite Eg in Hr, Er. cbn [skipn] in Hr, Er.
  rewrite (cells_split gl ok solid It) by (try assumption; apply ok_ascii; lia). unfold cells. rewrite Er, Eg. rewrite (it_ascii _ _ _ It) by lia. cbn [flat_map]. unfold cells_of at 1. cbn [fst snd teqb ceqb].
  assert (L : length (cells_of g) = 1) by (rewrite cell_len by lia; exact Hw). destruct (cells_of g) as [|c0 [|? ?]]; try discriminate. reflexivity.
Qed.
(** the last row: the characters that fit before column W-2, blanks, and the marker in that column *)
Lemma cells_single t : okt ok t -> gl t = map (fun c => ([c], Z.of_nat (cw (fst c)))) t -> Forall (fun c : tch => 1 <= cw (fst c)) t -> length (cells gl t) = fold_right (fun c n => cw (fst c) + n) 0 t.
Proof.
  intros H E F. rewrite (cells_len gl ok solid It) by exact H. rewrite E. clear E H. induction F as [|c t Hc F IH]; [reflexivity|]. cbn [map width fold_right]. rewrite IH. unfold wid. cbn [snd]. replace (Z.of_nat (cw (fst c)) <? 0)%Z with false by lia. lia.
Qed.
Definition cols (t : text) : nat := fold_right (fun c n => cw (fst c) + n) 0 t.
Lemma cols_app a b : cols (a ++ b) = cols a + cols b.
Proof. induction a as [|c a IH]; [reflexivity|]. cbn [app]. unfold cols in *. cbn [fold_right]. lia. Qed.
Lemma drop_end_ok : forall t, 2 <= W -> exists a b, t = a ++ b /\ drop_end W cw 0 (cols t) (rev t) = (rev a, cols a) /\ cols a + 2 <= W /\ match b with [] => True | c :: _ => W <= cols (a ++ [c]) + 1 end.
Proof.
  intros t HW. induction t as [|c t IH] using rev_ind.
  - exists [], []. cbn. auto.
  - rewrite rev_app_distr. cbn [rev app drop_end Nat.add]. destruct (W <=? cols (t ++ [c]) + 1) eqn:E.
    + destruct IH as (a & b & Et & Ed & Ha & Hb). exists a, (b ++ [c]). split; [rewrite Et, <- app_assoc; reflexivity|]. assert (Ec : cols (t ++ [c]) - cw (fst c) = cols t) by (rewrite cols_app; cbn; lia). rewrite Ec. split; [exact Ed|]. split; [exact Ha|].
      destruct b as [|d b]; cbn [app]; [|exact Hb]. rewrite app_nil_r in Et. rewrite <- Et. lia.
    + exists (t ++ [c]), []. rewrite app_nil_r. split; [reflexivity|]. split; [rewrite rev_app_distr; reflexivity|]. split; [lia|exact Logic.I].
Qed.
Lemma bottom_mark_ok l body : okt ok (l_text l) -> l_text l = body ++ spaces (l_trail l) -> l_x l = 0 -> l_lastcol l = cols body -> 2 < l_lastcol l -> 2 <= W ->
  gl body = map (fun c => ([c], Z.of_nat (cw (fst c)))) body -> Forall (fun c : tch => 1 <= cw (fst c)) body ->
  exists a b, body = a ++ b /\ match b with [] => True | c :: _ => W - 2 < cols (a ++ [c]) end /\
    cells gl (l_text (bottom_mark W cw l)) = cells gl a ++ blanks (W - 2 - length (cells gl a)) ++ [Glyph [(62%N, f_scroll)] 1] /\ length (cells gl (l_text (bottom_mark W cw l))) = W - 1 /\ l_lastcol (bottom_mark W cw l) = W - 1.
Proof.
  intros Hok Et Ex El H2 HW Eg Hc. unfold bottom_mark. rewrite Ex. replace (2 <? l_lastcol l - 0) with true by lia. cbv iota.
  assert (Eb : firstn (length (l_text l) - l_trail l) (l_text l) = body). { rewrite Et, app_length. unfold spaces at 1. rewrite repeat_length. replace (length body + l_trail l - l_trail l) with (length body) by lia. apply firstn_app_l. reflexivity. }
  rewrite Eb, El. destruct (drop_end_ok body HW) as (a & b & E & Ed & Ha & Hb). rewrite Ed. cbn [with_text l_text l_lastcol Nat.add]. rewrite rev_involutive.
  rewrite Et in Hok. apply okt_app in Hok as [Hbo _]. assert (Hao : okt ok a) by (rewrite E in Hbo; apply okt_app in Hbo; tauto).
  assert (Ega : gl a = map (fun c => ([c], Z.of_nat (cw (fst c)))) a).
  { pose proof (it_cut _ _ _ It body (length a) Hbo) as Hcut. rewrite Eg, E, map_app in Hcut. rewrite firstn_app_l in Hcut by (rewrite map_length; reflexivity). rewrite map_map in Hcut. assert (Ec : concat (map (fun x : tch => fst ([x], Z.of_nat (cw (fst x)))) a) = a) by (clear; induction a as [|x a IH]; [reflexivity|]; cbn [map concat app]; rewrite IH; reflexivity). etransitivity; [|exact Hcut]. apply f_equal. symmetry. exact Ec. }
  assert (Hca : Forall (fun c : tch => 1 <= cw (fst c)) a) by (rewrite E in Hc; apply Forall_app in Hc; tauto).
  pose proof (cells_single a Hao Ega Hca) as La. fold (cols a) in La.
  exists a, b. split; [exact E|]. split; [destruct b; [exact Logic.I|lia]|].
  assert (Ecell : cells gl (a ++ spaces (W - 2 - cols a) ++ [(62%N, f_scroll)]) = cells gl a ++ blanks (W - 2 - length (cells gl a)) ++ [Glyph [(62%N, f_scroll)] 1]).
  { assert (Og : okt ok [(62%N, f_scroll)]) by (apply ok_ascii; lia). assert (Sg : starts_solid solid [(62%N, f_scroll)]) by (cbn [starts_solid fst]; apply (it_solid _ _ _ It); [apply (it_ok _ _ _ It)|]; lia).
    rewrite (cells_split gl ok solid It a); [|exact Hao|apply okt_app; split; [apply (okt_spaces gl ok solid It)|exact Og]|].
    - rewrite (cells_split gl ok solid It (spaces _)); [|apply (okt_spaces gl ok solid It)|exact Og|exact Sg]. rewrite (cells_spaces gl ok solid It). rewrite La. f_equal. f_equal. unfold cells. rewrite (it_ascii _ _ _ It) by lia. reflexivity.
    - destruct (W - 2 - cols a); cbn [spaces repeat app starts_solid]; [exact Sg|]. cbn [fst]. apply (it_solid _ _ _ It); [apply (it_ok _ _ _ It)|]; lia. }
  split; [exact Ecell|]. split.
  - etransitivity; [exact (f_equal (@length cell) Ecell)|]. rewrite !app_length. unfold blanks. rewrite repeat_length. cbn [length]. lia.
  - lia.
Qed.
End Marks.
