(** Reading what is written: tokens, trimming, the words of a rule. *)
From Verif Require Import Base ClSpec.
Open Scope N_scope.

Lemma unit_text_ok v : unit_ok v -> unit_text v = [v].
Proof. intro H. unfold unit_ok in H. unfold unit_text. rewrite N.mod_small by lia. replace (v =? 0) with false by lia. replace ((55296 <=? v) && (v <? 57344)) with false by lia. reflexivity. Qed.
Lemma escape_table c : escape c = match find (fun x => fst x =? c) escapes with Some (_, v) => v | None => c end.
Proof.
  unfold escape, escapes. cbn [find fst].
  repeat match goal with |- context [c =? ?k] => rewrite (N.eqb_sym c k); destruct (k =? c) eqn:?; [reflexivity|] end. reflexivity.
Qed.
Lemma esc_ok c : unit_ok c -> unit_ok (escape c).
Proof. intro H. unfold escape. repeat match goal with |- context [if ?b then _ else _] => destruct b; [unfold unit_ok; lia|] end. exact H. Qed.
Lemma digit_ok c : is_digit c -> hexval c = Some (digit c) /\ digit c < 16.
Proof.
  unfold is_digit, hexval, digit. intros [H|[H|H]].
  - replace ((48 <=? c) && (c <=? 57)) with true by lia. replace (c <=? 57) with true by lia. split; [reflexivity|lia].
  - replace ((48 <=? c) && (c <=? 57)) with false by lia. replace ((97 <=? c) && (c <=? 102)) with false by lia. replace ((65 <=? c) && (c <=? 70)) with true by lia. replace (c <=? 57) with false by lia. replace (c <=? 70) with true by lia. split; [f_equal|]; lia.
  - replace ((48 <=? c) && (c <=? 57)) with false by lia. replace ((97 <=? c) && (c <=? 102)) with true by lia. replace (c <=? 57) with false by lia. replace (c <=? 70) with false by lia. split; [f_equal|]; lia.
Qed.
Lemma oct_ok a : a < 8 -> octval (48 + a) = Some a.
Proof. intro H. unfold octval. replace ((48 <=? 48 + a) && (48 + a <=? 55)) with true by lia. f_equal. lia. Qed.

Section T.
Variables d1 d2 : N.
Variable vb : bool.
Variable stop : N -> Prop.
Hypothesis Hd : forall c, c = d1 \/ c = d2 -> c = 58 \/ stop c.
Notation gt := (get_token d1 d2 vb).

Lemma quote_run s : forall l tok q, ~ In 34 s -> gt Quote (s ++ 34 :: l) tok q = gt Text l (add vb 34 (tok ++ s)) q.
Proof.
  induction s as [|c s IH]; intros l tok q H; cbn [app get_token].
  - rewrite app_nil_r. reflexivity.
  - replace (c =? 34) with false by (assert (c <> 34) by (intro X; apply H; left; exact X); lia). rewrite IH by (intro X; apply H; right; exact X). rewrite <- app_assoc. reflexivity.
Qed.
Lemma item_run i l tok q : good_item stop i -> gt Text (write1 i ++ l) tok q = gt Text l (tok ++ if vb then write1 i else read1 i) (q || quotes i).
Proof.
  intro H. destruct i as [c|c|a b c|big a b|big a b c d|c|s]; cbn [good_item] in H; cbn [quotes]; rewrite ?orb_false_r, ?orb_true_r.
  - destruct H as (H1 & H2 & H3 & H4 & H5). cbn [write1 app get_token]. replace (c =? 58) with false by lia. replace (c =? 34) with false by lia. replace (c =? 92) with false by lia. replace (c =? 94) with false by lia.
    replace ((c =? d1) || (c =? d2)) with false; [destruct vb; reflexivity|]. symmetry. apply orb_false_intro; apply N.eqb_neq; intro X; destruct (Hd c); auto.
  - destruct H as (H1 & H2 & H3 & H4 & H5 & H6). cbn [write1 app get_token]. change (92 =? 58) with false. change (92 =? 34) with false. change (92 =? 92) with true. cbv iota.
    replace (octval c) with (@None N) by (unfold octval; replace ((48 <=? c) && (c <=? 55)) with false by lia; reflexivity). replace ((c =? 120) || (c =? 88)) with false by lia. replace ((c =? 117) || (c =? 85)) with false by lia.
    f_equal. unfold add_num, add. destruct vb; [rewrite <- app_assoc; reflexivity|]. rewrite unit_text_ok by (apply esc_ok; exact H1). rewrite escape_table. reflexivity.
  - destruct H as (H1 & H2 & H3 & H4). cbn [write1 app get_token]. change (92 =? 58) with false. change (92 =? 34) with false. change (92 =? 92) with true. cbv iota. rewrite !oct_ok by assumption. cbn [Nat.leb Nat.sub].
    f_equal. unfold add_num, add. destruct vb; [rewrite <- !app_assoc; reflexivity|]. cbn [read1]. rewrite <- (unit_text_ok _ H4). do 2 f_equal. cbn [value1]. lia.
  - destruct H as (H1 & H2 & H4). destruct (digit_ok _ H1) as [E1 B1]. destruct (digit_ok _ H2) as [E2 B2]. destruct big; cbn [write1 app get_token]; change (92 =? 58) with false; change (92 =? 34) with false; change (92 =? 92) with true; cbv iota;
    [change (octval 88) with (@None N); change ((88 =? 120) || (88 =? 88)) with true|change (octval 120) with (@None N); change ((120 =? 120) || (120 =? 88)) with true]; cbv iota; rewrite E1, E2; cbn [Nat.leb Nat.sub];
    (f_equal; unfold add_num, add; destruct vb; [rewrite <- !app_assoc; reflexivity|]; cbn [read1]; rewrite <- (unit_text_ok _ H4); do 2 f_equal; cbn [value1]; lia).
  - destruct H as (H1 & H2 & H3 & H5 & H4). destruct (digit_ok _ H1) as [E1 B1]. destruct (digit_ok _ H2) as [E2 B2]. destruct (digit_ok _ H3) as [E3 B3]. destruct (digit_ok _ H5) as [E5 B5]. destruct big; cbn [write1 app get_token]; change (92 =? 58) with false; change (92 =? 34) with false; change (92 =? 92) with true; cbv iota;
    [change (octval 85) with (@None N); change ((85 =? 120) || (85 =? 88)) with false; change ((85 =? 117) || (85 =? 85)) with true|change (octval 117) with (@None N); change ((117 =? 120) || (117 =? 88)) with false; change ((117 =? 117) || (117 =? 85)) with true]; cbv iota; rewrite E1, E2, E3, E5; cbn [Nat.leb Nat.sub];
    (f_equal; unfold add_num, add; destruct vb; [rewrite <- !app_assoc; reflexivity|]; cbn [read1]; rewrite <- (unit_text_ok _ H4); do 2 f_equal; cbn [value1]; lia).
  - cbn [write1 app get_token]. change (94 =? 58) with false. change (94 =? 34) with false. change (94 =? 92) with false. change (94 =? 94) with true. cbv iota. cbn [read1 value1]. destruct H as [[H1 H2]|H].
    + replace ((64 <=? c) && (c <=? 126)) with true by lia. f_equal. unfold add_num, add. destruct vb; [rewrite <- app_assoc; reflexivity|]. replace (c =? 63) with false by lia. change 31 with (N.ones 5). rewrite N.land_ones. change (2 ^ 5) with 32. rewrite unit_text_ok; [reflexivity|]. unfold unit_ok. lia.
    + subst c. cbn [N.leb N.eqb Pos.eqb]. change ((64 <=? 63) && (63 <=? 126)) with false. cbv iota. f_equal. unfold add_num, add. destruct vb; [rewrite <- app_assoc; reflexivity|reflexivity].
  - cbn [write1 app get_token]. change (34 =? 58) with false. change (34 =? 34) with true. cbv iota. rewrite <- app_assoc. cbn [app]. rewrite quote_run by exact H. f_equal. unfold add. destruct vb; [rewrite <- !app_assoc; reflexivity|reflexivity].
Qed.
Lemma items_run w : forall l tok q, Forall (good_item stop) w -> gt Text (written w ++ l) tok q = gt Text l (tok ++ if vb then written w else reading w) (q || quoted w).
Proof.
  induction w as [|i w IH]; intros l tok q H.
  - cbn. rewrite orb_false_r. replace (tok ++ (if vb then [] else [])) with tok by (destruct vb; rewrite app_nil_r; reflexivity). reflexivity.
  - inversion H as [|? ? H1 H2]; subst. unfold written, reading, quoted. cbn [map concat existsb]. rewrite <- app_assoc, (item_run i _ tok q H1). fold (written w). rewrite IH by exact H2. rewrite orb_assoc. f_equal. rewrite <- app_assoc. f_equal. destruct vb; reflexivity.
Qed.
End T.

(** trimming *)
Lemma drop_repeat f c n l : f c = true -> drop_while f (repeat c n ++ l) = drop_while f l.
Proof. intro H. induction n as [|n IH]; [reflexivity|]. cbn [repeat app drop_while]. rewrite H. exact IH. Qed.
Lemma repeat_rev {A} (c : A) n : rev (repeat c n) = repeat c n.
Proof.
  induction n as [|n IH]; [reflexivity|]. cbn [repeat rev]. rewrite IH. clear IH. induction n as [|n IH]; [reflexivity|]. cbn [repeat app]. rewrite IH. reflexivity.
Qed.
Lemma trim_ok n m c b : left_space c = false -> right_space (last (c :: b) 0) = false -> trim (spaces n ++ (c :: b) ++ spaces m) = c :: b.
Proof.
  intros H1 H2. unfold trim, spaces. rewrite !rev_app_distr, repeat_rev, <- app_assoc, drop_repeat by reflexivity.
  destruct (rev (c :: b)) as [|x r] eqn:E; [cbn [rev] in E; destruct (rev b); discriminate E|].
  assert (Ex : x = last (c :: b) 0). { apply (f_equal (@rev N)) in E. rewrite rev_involutive in E. cbn [rev] in E. rewrite E, last_last. reflexivity. }
  cbn [app drop_while]. rewrite Ex, H2, <- Ex. change (x :: r ++ rev (repeat 32 n)) with ((x :: r) ++ rev (repeat 32 n)). rewrite <- E, rev_app_distr, !rev_involutive, drop_repeat by reflexivity. cbn [drop_while]. rewrite H1. reflexivity.
Qed.
Lemma write1_head i : good_item cond_stop i -> exists c t, write1 i = c :: t /\ left_space c = false.
Proof. intro H. destruct i as [c|c|a b c|big a b|big a b c d|c|s]; cbn [write1]; do 2 eexists; (split; [reflexivity|]); try reflexivity. cbn [good_item] in H. unfold cond_stop in H. unfold left_space. lia. Qed.
Lemma write1_last i : good_item cond_stop i -> match i with Es c => right_space c = false | _ => True end -> write1 i <> [] /\ right_space (last (write1 i) 0) = false.
Proof.
  intros H He. destruct i as [c|c|a b c|big a b|big a b c d|c|s]; cbn [write1]; (split; [discriminate|]); try (cbn [last]; cbn [good_item] in H; unfold cond_stop, is_digit in H; unfold right_space in *; lia).
  change (34 :: s ++ [34]) with ((34 :: s) ++ [34]). rewrite last_last. reflexivity.
Qed.
Lemma written_head w : Forall (good_item cond_stop) w -> w <> [] -> exists c t, written w = c :: t /\ left_space c = false.
Proof. intros H Hn. destruct w as [|i w]; [destruct (Hn eq_refl)|]. inversion H as [|? ? H1 H2]; subst. destruct (write1_head i H1) as (c & t & E & L). unfold written. cbn [map concat]. rewrite E. exists c, (t ++ concat (map write1 w)). split; [reflexivity|exact L]. Qed.
Lemma last_app_ne' (a b : text) : b <> [] -> last (a ++ b) 0 = last b 0.
Proof. intro H. destruct (exists_last H) as (b' & x & ->). rewrite app_assoc, !last_last. reflexivity. Qed.
Lemma written_last w : Forall (good_item cond_stop) w -> w <> [] -> good_end w -> written w <> [] /\ right_space (last (written w) 0) = false.
Proof.
  intros H Hn He. destruct (exists_last Hn) as (w' & i & ->). unfold good_end in He. rewrite last_last in He. apply Forall_app in H. destruct H as [_ H]. inversion H as [|? ? H1 _]; subst. destruct (write1_last i H1 He) as [N1 L1].
  unfold written. rewrite map_app, concat_app. cbn [map concat]. rewrite app_nil_r. split; [intro X; apply app_eq_nil in X; tauto|]. rewrite last_app_ne' by exact N1. exact L1.
Qed.
Definition words_ok (ws : list (nat * list item)) : Prop := Forall (fun w : nat * list item => Forall (good_item cond_stop) (snd w) /\ reading (snd w) <> []) ws.
Lemma reading_ne w : reading w <> [] -> w <> []. Proof. intros H ->. apply H. reflexivity. Qed.
Lemma words_last ws : forall first, ws <> [] -> words_ok ws -> good_end (snd (last ws (O, []))) -> write_words first ws <> [] /\ right_space (last (write_words first ws) 0) = false.
Proof.
  induction ws as [|[n w] ws IH]; intros first Hn Ho He; [destruct (Hn eq_refl)|]. inversion Ho as [|? ? [H1 H2] Ho']; subst. cbn [write_words]. destruct ws as [|v ws].
  - cbn [write_words]. rewrite app_nil_r. cbn [last snd] in *. destruct (written_last w H1 (reading_ne w H2) He) as [N1 L1]. split; [intro X; apply app_eq_nil in X; tauto|]. rewrite last_app_ne' by exact N1. exact L1.
  - destruct (IH false ltac:(discriminate) Ho' He) as [N1 L1]. split; [intro X; apply app_eq_nil in X; destruct X as [_ X]; apply app_eq_nil in X; tauto|]. rewrite !last_app_ne'; [exact L1|exact N1|intro X; apply app_eq_nil in X; tauto].
Qed.
Lemma words_trim n w ws m : words_ok ((n, w) :: ws) -> good_end (snd (last ((n, w) :: ws) (O, []))) -> trim (write_words true ((n, w) :: ws) ++ spaces m) = written w ++ write_words false ws.
Proof.
  intros Ho He. destruct (words_last ((O, w) :: ws) true ltac:(discriminate)) as [_ L].
  - inversion Ho as [|? ? H1 H2]; subst. apply Forall_cons; [exact H1|exact H2].
  - destruct ws; exact He.
  - cbn [write_words] in L. cbn [spaces repeat app] in L. inversion Ho as [|? ? [H1 H2] Ho']; subst. cbn [snd] in *. destruct (written_head w H1 (reading_ne w H2)) as (c & t & E & Lc). cbn [write_words]. rewrite E in *. cbn [app] in *. rewrite <- app_assoc. exact (trim_ok n m c (t ++ write_words false ws) Lc L).
Qed.

(** scanning the condition *)
Lemma spaces_run n l tok q : get_token 58 61 true Text (spaces n ++ l) tok q = get_token 58 61 true Text l (tok ++ spaces n) q.
Proof. revert tok. induction n as [|n IH]; intro tok; [cbn; rewrite app_nil_r; reflexivity|]. cbn [spaces repeat app get_token]. fold (spaces n). change (32 =? 58) with false. change (32 =? 34) with false. change (32 =? 92) with false. change (32 =? 94) with false. change (32 =? 61) with false. cbn [orb]. cbv iota. rewrite IH, <- app_assoc. reflexivity. Qed.
Lemma delims c : c = 58 \/ c = 61 -> c = 58 \/ cond_stop c. Proof. unfold cond_stop. lia. Qed.
Lemma words_run ws : forall first l tok q, words_ok ws -> exists q', get_token 58 61 true Text (write_words first ws ++ l) tok q = get_token 58 61 true Text l (tok ++ write_words first ws) q'.
Proof.
  induction ws as [|[n w] ws IH]; intros first l tok q H; [exists q; cbn; rewrite app_nil_r; reflexivity|]. inversion H as [|? ? [H1 H2] Ho']; subst. cbn [snd] in *. cbn [write_words]. rewrite <- !app_assoc, spaces_run, (items_run 58 61 true cond_stop delims w _ _ _ H1). destruct (IH false l ((tok ++ spaces (if first then n else S n)) ++ written w) (q || quoted w) Ho') as (q' & E). exists q'. rewrite E, <- !app_assoc. reflexivity.
Qed.
Lemma rule_token r l : words_ok (w_words r) -> w_words r <> [] -> good_end (snd (last (w_words r) (O, []))) -> Forall (good_item color_stop) (w_color r) ->
  l = [] \/ (exists l', l = 58 :: l') ->
  get_token_and_value (write_rule r ++ l) = Some (written (snd (hd (O, []) (w_words r))) ++ write_words false (tl (w_words r)), reading (w_color r), tl l).
Proof.
  intros Ho Hn He Hc Hl. unfold get_token_and_value, write_rule. destruct (w_words r) as [|[n w] ws] eqn:Ew; [destruct (Hn eq_refl)|].
  rewrite <- !app_assoc. destruct (words_run ((n, w) :: ws) true (spaces (w_end r) ++ [61] ++ written (w_color r) ++ l) [] false Ho) as (q & E). rewrite E, spaces_run. cbn [app get_token]. change (61 =? 58) with false. change (61 =? 34) with false. change (61 =? 92) with false. change (61 =? 94) with false. change (61 =? 61) with true. cbn [orb]. cbv beta iota zeta.
  rewrite (items_run 58 0 false color_stop) by (try exact Hc; unfold color_stop; lia). rewrite (words_trim n w ws (w_end r) Ho He). cbn [hd tl snd]. destruct Hl as [->|[l' ->]]; reflexivity.
Qed.

(** the words of a rule *)
Definition on_words (ws : list (nat * list item)) (x : pr) : pr := fold_left (fun x w => on_token (reading (snd w)) (quoted (snd w)) x) ws x.
Lemma loop_spaces k : forall f l x, rule_loop (k + f) (spaces k ++ l) x = rule_loop f l x.
Proof. induction k as [|k IH]; intros f l x; [reflexivity|]. cbn [Nat.add spaces repeat app rule_loop]. fold (spaces k). cbn [get_token]. change (32 =? 58) with false. change (32 =? 34) with false. change (32 =? 92) with false. change (32 =? 94) with false. change ((32 =? 32) || (32 =? 0)) with true. cbv iota. cbn [on_token]. apply IH. Qed.
Lemma delims2 c : c = 32 \/ c = 0 -> c = 58 \/ cond_stop c. Proof. unfold cond_stop. lia. Qed.
Lemma loop_word w l f x : Forall (good_item cond_stop) w -> reading w <> [] -> l = [] \/ (exists l', l = 32 :: l') -> rule_loop (S f) (written w ++ l) x = rule_loop f (tl l) (on_token (reading w) (quoted w) x).
Proof.
  intros H1 H2 Hl. cbn [rule_loop]. destruct (written w ++ l) as [|c t] eqn:E.
  - destruct (written_head w H1 (reading_ne w H2)) as (c & t & Ec & _). rewrite Ec in E. discriminate E.
  - rewrite <- E. rewrite (items_run 32 0 false cond_stop delims2 w _ _ _ H1). cbn [app orb]. destruct Hl as [->|[l' ->]]; reflexivity.
Qed.
Lemma loop_words ws : forall w f x, words_ok ((O, w) :: ws) -> (length (written w ++ write_words false ws) < f)%nat -> rule_loop f (written w ++ write_words false ws) x = Some (on_words ((O, w) :: ws) x).
Proof.
  induction ws as [|[n v] ws IH]; intros w f x Ho Hf; inversion Ho as [|? ? [H1 H2] Ho']; subst; cbn [snd] in *.
  - destruct f as [|f]; [lia|]. cbn [write_words]. rewrite (loop_word w [] f x H1 H2 (or_introl eq_refl)). cbn [tl on_words fold_left snd]. destruct f as [|f]; [|reflexivity].
    cbn [write_words] in Hf. rewrite app_nil_r in Hf. destruct (written_head w H1 (reading_ne w H2)) as (c & t & Ec & _). rewrite Ec in Hf. cbn [length] in Hf. lia.
  - destruct f as [|f]; [lia|]. cbn [write_words]. change (spaces (S n)) with (32 :: spaces n). cbn [app]. rewrite (loop_word w (32 :: spaces n ++ written v ++ write_words false ws) f x H1 H2 (or_intror (ex_intro _ _ eq_refl))). cbn [tl].
    cbn [write_words] in Hf. rewrite !app_length in Hf. unfold spaces in Hf at 1. rewrite repeat_length in Hf. replace f with (n + (f - n))%nat by lia. rewrite loop_spaces. rewrite IH; [reflexivity|inversion Ho' as [|? ? H3 H4]; subst; apply Forall_cons; [exact H3|exact H4]|rewrite app_length; lia].
Qed.
