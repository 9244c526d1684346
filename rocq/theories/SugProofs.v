(** Proofs about SugModel. *)
From Verif Require Import Base UtfModel UtfSpec UtfProofs TokProofs CmpModel CmpSpec CmpProofs CmpProperties SugModel SugSpec.

Lemma enc_app a b : enc (a ++ b) = enc a ++ enc b.
Proof. apply flat_map_app. Qed.
Lemma enc_cons c t : enc (c :: t) = utf8 c ++ enc t.
Proof. reflexivity. Qed.
Lemma enc_encode t : encode false t = enc t.
Proof. reflexivity. Qed.
Lemma utf8_len c : scalar c -> 0 < length (utf8 c).
Proof. intro H. destruct (enc_nonempty false c H) as [H1 _]. cbn in H1. destruct (utf8 c); [contradiction|cbn; lia]. Qed.
Lemma enc_zero_free t : Forall scalar t -> Forall (fun u => u <> 0%N) (enc t).
Proof.
  intro H. destruct (wf_text false t H) as (pre & post & _ & _ & Hz & _). exact Hz.
Qed.
Lemma enc_len t : Forall scalar t -> length t <= length (enc t).
Proof.
  induction t as [|c t IH]; intro H; [cbn; lia|]. rewrite enc_cons, app_length. cbn [length].
  pose proof (utf8_len _ (Forall_inv H)). specialize (IH (Forall_inv_tail H)). lia.
Qed.
Lemma enc_nil t : Forall scalar t -> enc t = [] -> t = [].
Proof. intros H E. pose proof (enc_len t H). rewrite E in *. destruct t; [auto|cbn in *; lia]. Qed.

(** ** Texts in memory *)
Lemma ta_some pre t post : Forall scalar t ->
  text_at (pre ++ enc t ++ post) (Some (length pre + length (enc t))) (length pre) (enc t).
Proof. intro H. exists pre, post. split; [auto|]. split; [auto|]. split; [apply enc_zero_free; auto|left; auto]. Qed.
Lemma ta_none pre t post : Forall scalar t ->
  text_at (pre ++ enc t ++ 0%N :: post) None (length pre) (enc t).
Proof.
  intro H. exists pre, (0%N :: post). split; [auto|]. split; [auto|]. split; [apply enc_zero_free; auto|right; auto].
Qed.

Lemma ta_end a t : Forall scalar t ->
  text_at (cstr (enc (a ++ t))) (Some (length (enc (a ++ t)))) (length (enc a)) (enc t).
Proof.
  intro H. unfold cstr. rewrite enc_app, <- app_assoc, app_length. apply ta_some; auto.
Qed.
Lemma ta_mid a t u : Forall scalar t ->
  text_at (cstr (enc (a ++ t ++ u))) (Some (length (enc (a ++ t)))) (length (enc a)) (enc t).
Proof.
  intro H. unfold cstr. rewrite !enc_app, <- !app_assoc, app_length. apply ta_some; auto.
Qed.
Lemma ta_nul a t : Forall scalar t ->
  text_at (cstr (enc (a ++ t))) None (length (enc a)) (enc t).
Proof. intro H. unfold cstr. rewrite enc_app, <- app_assoc. apply ta_none; auto. Qed.

Lemma next_char mem e p c t : Forall scalar (c :: t) -> text_at mem e p (enc (c :: t)) ->
  next8 mem e p = Some (c, p + length (utf8 c)) /\ text_at mem e (p + length (utf8 c)) (enc t).
Proof.
  intros Hs Ht. destruct (read_wf false mem e p (c :: t) Hs Ht) as (p' & E & ->). cbn [enc_of] in E.
  split; [exact E|]. rewrite enc_cons in Ht. apply text_at_suffix in Ht. exact Ht.
Qed.
Lemma next_end mem e p : text_at mem e p [] -> next8 mem e p = Some (0%N, p).
Proof. intro H. destruct (read_wf false mem e p [] (Forall_nil _) H) as (p' & E & ->). rewrite E, Nat.add_0_r. auto. Qed.
Lemma more_enc mem e p t : Forall scalar t -> text_at mem e p (enc t) ->
  more mem e p = Some (match t with [] => false | _ => true end).
Proof.
  intros Hs Ht. rewrite (more_text _ _ _ _ Ht). destruct t as [|c t]; [reflexivity|].
  pose proof (enc_len _ Hs). cbn [length] in *. destruct (enc (c :: t)); [cbn in *; lia|reflexivity].
Qed.

(** ** Comparison of texts without runs of separators *)
Section Compare.
Variable lower : N -> N.
Variable e : env.
Notation k := (key lower (e_mode e) (e_fuzzy e) true).
Definition singles (kk : N -> N) (t : list N) := map (fun c => (kk c, [c])) t.

Lemma plain_elements t : plain k t -> elements k t (singles k t).
Proof.
  induction t as [|c t IH]; intro H; [constructor|]. destruct H as [H1 H2]. cbn [singles map].
  destruct (N.eq_dec (k c) 47) as [E|E].
  - rewrite E. exact (E_sep k c [] t _ E (Forall_nil _) (H1 E) (IH H2)).
  - constructor; auto.
Qed.
Lemma singles_snd t : flat_map snd (singles k t) = t.
Proof. induction t as [|c t IH]; [auto|]. cbn. f_equal. exact IH. Qed.
Lemma singles_fst t : map fst (singles k t) = map k t.
Proof. unfold singles. rewrite map_map. reflexivity. Qed.

(** Comparing any two well formed texts. *)
Lemma compare_any ml el p mr er q l r : Forall scalar l -> Forall scalar r ->
  text_at ml el p (enc l) -> text_at mr er q (enc r) ->
  forall esl esr, elements k l esl -> elements k r esr ->
  let n := agree (map fst esl) (map fst esr) in
  exists l' r', compare lower e ml el p mr er q =
      Some (p + length (enc (flat_map snd (firstn n esl))), q + length (enc (flat_map snd (firstn n esr)))) /\
    l = flat_map snd (firstn n esl) ++ l' /\ r = flat_map snd (firstn n esr) ++ r' /\
    (l' = [] <-> n = length esl) /\ (r' = [] <-> n = length esr).
Proof.
  intros Hl Hr Htl Htr esl esr Hel Her. unfold compare.
  pose proof (text_at_len _ _ _ _ Htl) as Hll. pose proof (text_at_len _ _ _ _ Htr) as Hlr.
  exact (cmp_loop_ok lower (e_mode e) (e_fuzzy e) true ml mr el er utf8
     (next8 ml el) (next8 mr er) scalar
     (enc_nonempty false) (read_wf false ml el) (read_wf false mr er)
     (S (length ml + length mr)) l r esl esr p q Hl Hr Hel Her Htl Htr ltac:(unfold enc in *; lia)).
Qed.

Lemma alike_agree t p r : alike k t p -> agree (map k t) (map k (p ++ r)) = length t.
Proof.
  intro H. induction H as [|a b t p Hab H IH]; [reflexivity|]. cbn [app map agree length].
  rewrite Hab, N.eqb_refl, IH. reflexivity.
Qed.
Lemma alike_len t p : alike k t p -> length t = length p.
Proof. intro H. induction H; cbn; auto. Qed.

Lemma firstn_singles a b : flat_map snd (firstn (length a) (singles k (a ++ b))) = a.
Proof.
  unfold singles. rewrite firstn_map.
  rewrite <- (Nat.add_0_r (length a)), firstn_app_2, firstn_O, app_nil_r. apply singles_snd.
Qed.

(** The text [t] is like the beginning [pp] of the suggestion: both iterators go behind them. *)
Lemma compare_alike ml el p mr er q t pp r : Forall scalar t -> Forall scalar (pp ++ r) ->
  plain k t -> plain k (pp ++ r) -> alike k t pp ->
  text_at ml el p (enc t) -> text_at mr er q (enc (pp ++ r)) ->
  compare lower e ml el p mr er q = Some (p + length (enc t), q + length (enc pp)) /\
  more ml el (p + length (enc t)) = Some false.
Proof.
  intros Ht Hp Hpt Hpp Ha Htl Htr.
  destruct (compare_any ml el p mr er q t (pp ++ r) Ht Hp Htl Htr _ _ (plain_elements _ Hpt) (plain_elements _ Hpp))
    as (l' & r' & -> & _).
  rewrite !singles_fst, (alike_agree _ _ _ Ha).
  pose proof (firstn_singles t []) as E1. rewrite app_nil_r in E1. rewrite E1.
  rewrite (alike_len _ _ Ha), firstn_singles. split; [reflexivity|].
  rewrite <- (app_nil_r (enc t)) in Htl. apply text_at_suffix in Htl.
  apply (more_enc _ _ _ []); auto.
Qed.
End Compare.

(** ** Stepping over characters *)
Lemma odd_quotes_cons c t : odd_quotes (c :: t) = if (c =? 34)%N then negb (odd_quotes t) else odd_quotes t.
Proof.
  unfold odd_quotes, quote_mark. cbn [count_occ]. destruct (N.eq_dec c 34) as [->|H].
  - rewrite N.eqb_refl, Nat.odd_succ, <- Nat.negb_odd. reflexivity.
  - replace (c =? 34)%N with false by lia. reflexivity.
Qed.

Lemma track_ok t2 : forall fuel l0 pp p2 r off quote,
  Forall scalar t2 -> Forall scalar (p2 ++ r) -> length t2 = length p2 -> length t2 < fuel -> off <= length (enc l0) ->
  track fuel (enc (l0 ++ t2)) (enc (pp ++ p2 ++ r)) off (length (enc l0)) (length (enc pp)) quote =
    Some (length (enc (pp ++ p2)), xorb quote (odd_quotes t2)).
Proof.
  induction t2 as [|c t2 IH]; intros fuel l0 pp p2 r off quote Ht Hp Hlen Hf Hoff;
    (destruct fuel as [|fuel]; [cbn in Hf; lia|]).
  - destruct p2; [|discriminate]. cbn [track]. rewrite !app_nil_r, Nat.ltb_irrefl. cbn. destruct quote; reflexivity.
  - destruct p2 as [|d p2]; [discriminate|]. cbn [track].
    pose proof (utf8_len _ (Forall_inv Ht)) as Hc.
    replace (length (enc l0) <? length (enc (l0 ++ c :: t2))) with true
      by (symmetry; apply Nat.ltb_lt; rewrite enc_app, enc_cons, !app_length; lia).
    destruct (next_char _ _ _ c t2 Ht (ta_end l0 (c :: t2) Ht)) as [-> _].
    replace (off <? length (enc l0) + length (utf8 c)) with true by (symmetry; apply Nat.ltb_lt; lia).
    destruct (next_char _ _ _ d (p2 ++ r) Hp (ta_end pp ((d :: p2) ++ r) Hp)) as [-> _].
    specialize (IH fuel (l0 ++ [c]) (pp ++ [d]) p2 r off (if (c =? 34)%N then negb quote else quote)
                   (Forall_inv_tail Ht) (Forall_inv_tail Hp) ltac:(cbn in Hlen; lia) ltac:(cbn in Hf; lia)).
    rewrite <- !app_assoc in IH. cbn [app] in IH.
    assert (E1 : length (enc l0) + length (utf8 c) = length (enc (l0 ++ [c])))
      by (rewrite enc_app, enc_cons, !app_length; cbn; lia).
    assert (E2 : length (enc pp) + length (utf8 d) = length (enc (pp ++ [d])))
      by (rewrite enc_app, enc_cons, !app_length; cbn; lia).
    rewrite E1, E2. cbn [app]. rewrite IH by lia.
    f_equal. f_equal. rewrite odd_quotes_cons. destruct (c =? 34)%N, quote, (odd_quotes t2); reflexivity.
Qed.

Lemma word_break_iff c : word_break c = true <-> blank c.
Proof. unfold word_break, blank. lia. Qed.

Lemma skip_blanks_ok bl : forall fuel pp t, Forall scalar (bl ++ t) -> Forall blank bl ->
  match t with c :: _ => ~ blank c | [] => True end -> length bl < fuel ->
  skip_blanks fuel (enc (pp ++ bl ++ t)) (length (enc pp)) = Some (length (enc (pp ++ bl))).
Proof.
  induction bl as [|c bl IH]; intros fuel pp t Hs Hb Ht Hf; (destruct fuel as [|fuel]; [cbn in Hf; lia|]); cbn [skip_blanks].
  - rewrite app_nil_r. cbn [app] in *. destruct t as [|c t].
    + rewrite (next_end _ _ _ (ta_end pp [] Hs)). reflexivity.
    + destruct (next_char _ _ _ c t Hs (ta_end pp (c :: t) Hs)) as [-> _].
      destruct (enc_nonempty false c (Forall_inv Hs)) as [_ H0].
      replace (c =? 0)%N with false by lia.
      destruct (word_break c) eqn:E; [apply word_break_iff in E; contradiction|reflexivity].
  - cbn [app] in *. destruct (next_char _ _ _ c _ Hs (ta_end pp _ Hs)) as [-> _].
    destruct (enc_nonempty false c (Forall_inv Hs)) as [_ H0]. replace (c =? 0)%N with false by lia.
    rewrite (proj2 (word_break_iff c) (Forall_inv Hb)).
    specialize (IH fuel (pp ++ [c]) t (Forall_inv_tail Hs) (Forall_inv_tail Hb) Ht ltac:(cbn in Hf; lia)).
    rewrite <- !app_assoc in IH. cbn [app] in IH.
    replace (length (enc pp) + length (utf8 c)) with (length (enc (pp ++ [c])))
      by (rewrite enc_app, enc_cons, !app_length; cbn; lia).
    exact IH.
Qed.

Lemma skip_word_ok q t w r : word_from q t w r -> forall fuel pp, Forall scalar t -> length w < fuel ->
  t = w ++ r /\ skip_word fuel (enc (pp ++ t)) (length (enc pp)) q = Some (length (enc (pp ++ w))).
Proof.
  intro H. induction H as [q|c r Hb|q t w r H IH|q c t w r Hc Hq H IH]; intros fuel pp Hs Hf;
    (destruct fuel as [|fuel]; [cbn in Hf; lia|]); cbn [skip_word].
  - rewrite (next_end _ _ _ (ta_end pp [] Hs)). split; [reflexivity|]. rewrite !app_nil_r. reflexivity.
  - destruct (next_char _ _ _ c r Hs (ta_end pp _ Hs)) as [-> _].
    destruct (enc_nonempty false c (Forall_inv Hs)) as [_ H0]. replace (c =? 0)%N with false by lia.
    replace (c =? 34)%N with false by (destruct Hb; lia). rewrite (proj2 (word_break_iff c) Hb), app_nil_r. split; reflexivity.
  - destruct (next_char _ _ _ quote_mark t Hs (ta_end pp _ Hs)) as [-> _].
    destruct (IH fuel (pp ++ [quote_mark]) (Forall_inv_tail Hs) ltac:(cbn in Hf; lia)) as [E1 E2].
    split; [cbn; f_equal; exact E1|]. rewrite <- !app_assoc in E2. cbn [app] in E2.
    change (quote_mark =? 0)%N with false. change (quote_mark =? 34)%N with true. cbv iota.
    replace (length (enc pp) + length (utf8 quote_mark)) with (length (enc (pp ++ [quote_mark])))
      by (rewrite enc_app, enc_cons, !app_length; cbn; lia).
    exact E2.
  - destruct (next_char _ _ _ c t Hs (ta_end pp _ Hs)) as [-> _].
    destruct (IH fuel (pp ++ [c]) (Forall_inv_tail Hs) ltac:(cbn in Hf; lia)) as [E1 E2].
    split; [cbn; f_equal; exact E1|]. rewrite <- !app_assoc in E2. cbn [app] in E2.
    destruct (enc_nonempty false c (Forall_inv Hs)) as [_ H0]. replace (c =? 0)%N with false by lia.
    unfold quote_mark in Hc. replace (c =? 34)%N with false by lia.
    assert (negb q && word_break c = false) as ->.
    { destruct Hq as [->|Hq]; [reflexivity|]. destruct (word_break c) eqn:E; [apply word_break_iff in E; contradiction|].
      apply andb_false_r. }
    replace (length (enc pp) + length (utf8 c)) with (length (enc (pp ++ [c])))
      by (rewrite enc_app, enc_cons, !app_length; cbn; lia).
    exact E2.
Qed.

Lemma word_from_exists t : forall q, exists w r, word_from q t w r.
Proof.
  induction t as [|c t IH]; intro q; [exists [], []; constructor|].
  destruct (N.eq_dec c quote_mark) as [->|Hc].
  - destruct (IH (negb q)) as (w & r & H). exists (quote_mark :: w), r. constructor; auto.
  - destruct (word_break c) eqn:E; [destruct q|].
    + destruct (IH true) as (w & r & H). exists (c :: w), r. constructor; auto.
    + exists [], (c :: t). constructor. apply word_break_iff. auto.
    + destruct (IH q) as (w & r & H). exists (c :: w), r. constructor; auto. right. rewrite <- word_break_iff, E. discriminate.
Qed.
Lemma word_from_split q t w r : word_from q t w r -> t = w ++ r.
Proof. intro H. induction H; cbn; auto; f_equal; auto. Qed.
Lemma blanks_split t : exists bl u, t = bl ++ u /\ Forall blank bl /\ match u with c :: _ => ~ blank c | [] => True end.
Proof.
  induction t as [|c t (bl & u & -> & Hb & Hu)]; [exists [], []; auto|].
  destruct (word_break c) eqn:E.
  - exists (c :: bl), u. split; [auto|]. split; [|auto]. constructor; auto. apply word_break_iff; auto.
  - exists [], (c :: bl ++ u). split; [auto|]. split; [auto|]. rewrite <- word_break_iff, E. discriminate.
Qed.
Lemma full_word_exists q t : exists w r, full_word q t w r.
Proof.
  destruct (blanks_split t) as (bl & u & -> & Hb & Hu). destruct (word_from_exists u q) as (w & r & H).
  pose proof (word_from_split _ _ _ _ H) as ->. exists (bl ++ w), r, bl, w. auto.
Qed.
Lemma full_word_split q t w r : full_word q t w r -> t = w ++ r.
Proof. intros (bl & w1 & -> & -> & _). rewrite app_assoc. auto. Qed.
(** A word is not empty unless the text is. *)
Lemma full_word_progress q t w r : full_word q t w r -> t <> [] -> w <> [].
Proof.
  intros (bl & w1 & -> & -> & Hb & Hu & H) Hn E. apply app_eq_nil in E as [-> ->]. cbn [app] in *.
  inversion H; subst; auto.
Qed.

Lemma resync_ok w : forall fuel pp w0 rest consume,
  Forall scalar (w ++ rest) -> length w < fuel -> (consume <= Z.of_nat (length (enc (w0 ++ w))))%Z ->
  exists w1 w2, w = w1 ++ w2 /\
    resync fuel (enc (pp ++ w0 ++ w ++ rest)) (length (enc pp)) (length (enc (pp ++ w0))) consume =
      Some (length (enc (pp ++ w0 ++ w1))) /\ (consume <= Z.of_nat (length (enc (w0 ++ w1))))%Z.
Proof.
  induction w as [|c w IH]; intros fuel pp w0 rest consume Hs Hf Hc; (destruct fuel as [|fuel]; [cbn in Hf; lia|]); cbn [resync].
  - rewrite app_nil_r in Hc. exists [], []. split; [auto|].
    rewrite (enc_app pp w0), app_length.
    replace (Z.of_nat (length (enc pp) + length (enc w0)) - Z.of_nat (length (enc pp)) <? consume)%Z with false by lia.
    rewrite !app_nil_r. split; [rewrite enc_app, app_length; reflexivity|lia].
  - destruct (Z.ltb_spec (Z.of_nat (length (enc (pp ++ w0))) - Z.of_nat (length (enc pp))) consume) as [E|E].
    + replace (pp ++ w0 ++ (c :: w) ++ rest) with ((pp ++ w0) ++ c :: w ++ rest) by (rewrite <- app_assoc; auto).
      cbn [app] in Hs. destruct (next_char _ _ _ c _ Hs (ta_end (pp ++ w0) _ Hs)) as [-> _].
      destruct (IH fuel pp (w0 ++ [c]) rest consume (Forall_inv_tail Hs) ltac:(cbn in Hf; lia)) as (w1 & w2 & -> & E1 & E2).
      { rewrite <- app_assoc. exact Hc. }
      exists (c :: w1), w2. split; [auto|]. rewrite <- !app_assoc in E1, E2. cbn [app] in E1, E2. rewrite <- !app_assoc in E1. cbn [app] in E1.
      rewrite <- !app_assoc. cbn [app]. rewrite <- ?app_assoc. split; [|exact E2].
      replace (length (enc (pp ++ w0)) + length (utf8 c)) with (length (enc (pp ++ w0 ++ [c])))
        by (rewrite !enc_app, enc_cons, !app_length; cbn; lia).
      exact E1.
    + exists [], (c :: w). split; [auto|]. rewrite !app_nil_r. split; [reflexivity|].
      rewrite enc_app, app_length in E. lia.
Qed.

(** ** The edited line *)
Lemma b_remove_tail a b : b_remove (mkBuf (a ++ b) (length (a ++ b))) (length a) (length (a ++ b)) = mkBuf a (length a).
Proof.
  unfold b_remove. cbn [b_text b_cur]. rewrite Nat.min_id.
  replace (length (a ++ b) <? length a) with false by (symmetry; apply Nat.ltb_ge; rewrite app_length; lia).
  rewrite firstn_app_exact by reflexivity. rewrite skipn_all, app_nil_r, app_length. f_equal. lia.
Qed.

Lemma b_retype a b t : b_insert (b_remove (mkBuf (a ++ b) (length (a ++ b))) (length a) (length (a ++ b))) t =
  mkBuf (a ++ t) (length (a ++ t)).
Proof.
  rewrite b_remove_tail. unfold b_insert. cbn [b_text b_cur].
  rewrite firstn_all, skipn_all, app_nil_r, app_length. reflexivity.
Qed.

(** ** Accepting *)
(** A single suggestion [s] for the text behind [a], not exhausted. *)
Definition offers (g : mgr) (a s : list N) : Prop :=
  exists src deco h q, u_items (g_sugs g) = [mkItem (enc s) (length (enc a)) src deco h] /\
    g_iter g = Some q /\ q < length (enc s).
(** The line [l] with the cursor at its end. *)
Definition typed (l : list N) : buf := mkBuf (enc l) (length (enc l)).
(** The last word starts behind [a ++ t1], or before the end of [a]. *)
Definition last_word (w : nat) (a t1 : list N) : Prop :=
  w = length (enc (a ++ t1)) \/ (t1 = [] /\ w <= length (enc a)).
Definition ready (e : env) : Prop := e_enable e = true /\ e_inline e = true /\ e_list_active e = false.

Lemma last_word_max w a t1 : last_word w a t1 -> Nat.max w (length (enc a)) = length (enc (a ++ t1)).
Proof.
  intros [->|[-> H]]; [rewrite enc_app, app_length; lia|]. rewrite app_nil_r. lia.
Qed.

Lemma offers_more g a s : Forall scalar s -> offers g a s ->
  exists src deco h q, u_items (g_sugs g) = [mkItem (enc s) (length (enc a)) src deco h] /\ g_iter g = Some q /\
    more (cstr (enc s)) (Some (length (enc s))) q = Some true.
Proof.
  intros Hs (src & deco & h & q & H1 & H2 & H3). exists src, deco, h, q. split; [auto|]. split; [auto|].
  unfold more. replace (q =? length (enc s)) with false by lia.
  unfold cstr. rewrite nth_error_app1 by auto.
  destruct (nth_error (enc s) q) as [u|] eqn:E; [|apply nth_error_None in E; lia].
  pose proof (enc_zero_free s Hs) as Hz. rewrite Forall_forall in Hz. specialize (Hz u (nth_error_In _ _ E)).
  replace (u =? 0)%N with false by lia. reflexivity.
Qed.

Section Accept.
Variable lower : N -> N.
Variable forward_word : list N -> nat -> nat.
Variable e : env.
Notation k := (key lower (e_mode e) (e_fuzzy e) true).

Lemma plain_app_l a b : plain k (a ++ b) -> plain k a.
Proof.
  induction a as [|c a IH]; intro H; [exact Logic.I|]. cbn [app plain] in *. destruct H as [H1 H2]. split; [|auto].
  intro E. specialize (H1 E). destruct a; auto.
Qed.

(** insert, when the line is like the suggestion: what remains to be done. *)
Lemma insert_core fuel act g a t1 t2 p1 p2 r w :
  ready e -> Forall scalar (a ++ t1 ++ t2) -> Forall scalar (p1 ++ p2 ++ r) ->
  offers g a (p1 ++ p2 ++ r) -> g_endword g = Some w -> last_word w a t1 ->
  plain k t1 -> plain k (p1 ++ p2 ++ r) -> alike k t1 p1 -> length t2 = length p2 ->
  (e_original e = true -> act = to_end -> a <> []) -> length t2 < fuel ->
  insert lower forward_word e fuel act g (typed (a ++ t1 ++ t2)) =
    insert_rest forward_word e fuel act g (typed (a ++ t1 ++ t2)) (length (enc a)) (enc (p1 ++ p2 ++ r)) w
      (length (enc p1)) (length (enc (p1 ++ p2))) (inside (a ++ t1 ++ t2) w t2).
Proof.
  intros (Hen & Hin & Hla) Hl Hs Ho Hw Hlw Hp1 Hps Ha Hlen Hact Hf.
  destruct (offers_more _ _ _ Hs Ho) as (src & deco & h & q & H1 & H2 & H3).
  unfold insert. rewrite Hen, Hin, H1, Hla, H2. cbn [negb orb i_text i_off typed b_text b_cur]. cbv zeta.
  rewrite H3, Nat.eqb_refl. cbn [negb orb].
  assert ((e_original e && match act with to_end => true | _ => false end && (length (enc a) =? 0))%bool = false) as ->.
  { destruct (e_original e); [|reflexivity]. destruct act; try reflexivity. cbn [andb].
    apply Nat.eqb_neq. specialize (Hact eq_refl eq_refl). intro E. apply Hact.
    apply enc_nil; [|destruct (enc a); [auto|discriminate]]. apply Forall_app in Hl; tauto. }
  rewrite Hw.
  assert (Hsl : Forall scalar a /\ Forall scalar t1 /\ Forall scalar t2).
  { apply Forall_app in Hl as [Hl1 Hl]. apply Forall_app in Hl as [Hl2 Hl3]. auto. }
  destruct Hsl as (Sa & S1 & S2).
  assert (E : (if length (enc a) <? w
    then match compare lower e (cstr (enc (a ++ t1 ++ t2))) (Some w) (length (enc a)) (cstr (enc (p1 ++ p2 ++ r)))
                 (Some (length (enc (p1 ++ p2 ++ r)))) 0 with
         | Some (p, q0) => match more (cstr (enc (a ++ t1 ++ t2))) (Some w) p with
                           | Some om => Some (om, q0) | None => None end
         | None => None end
    else Some (false, 0)) = Some (false, length (enc p1))).
  { destruct (Nat.ltb_spec (length (enc a)) w) as [Hlt|Hge].
    - destruct Hlw as [->|[-> Hle]]; [|lia].
      pose proof (ta_end [] (p1 ++ p2 ++ r) Hs) as Hts. cbn [app] in Hts.
      destruct (compare_alike lower e _ _ _ _ _ 0 t1 p1 (p2 ++ r) S1 Hs Hp1 Hps Ha
                  (ta_mid a t1 t2 S1) Hts) as [-> ->]. reflexivity.
    - assert (t1 = []) as ->.
      { destruct Hlw as [->|[-> _]]; [|auto]. rewrite enc_app, app_length in Hge. apply enc_nil; auto.
        destruct (enc t1); [auto|cbn in Hge; lia]. }
      inversion Ha; subst. reflexivity. }
  rewrite E. clear E.
  assert (Hwn : w <= length (enc (a ++ t1 ++ t2))).
  { rewrite app_assoc, enc_app, app_length. pose proof (last_word_max _ _ _ Hlw). lia. }
  assert (E : match w with 0 => Some false
              | S j => match nth_error (cstr (enc (a ++ t1 ++ t2))) j with Some c => Some (c =? 34)%N | None => None end end =
          Some (match w with 0 => false | S j => (nth j (enc (a ++ t1 ++ t2)) 0 =? quote_mark)%N end)).
  { destruct w as [|j]; [reflexivity|]. unfold cstr. rewrite nth_error_app1 by lia.
    rewrite (nth_error_nth' _ 0%N) by lia. reflexivity. }
  rewrite E. clear E. rewrite (last_word_max _ _ _ Hlw).
  set (q0 := match w with 0 => false | S j => _ end).
  assert (E : (if length (enc (a ++ t1)) <? length (enc (a ++ t1 ++ t2))
     then track fuel (enc (a ++ t1 ++ t2)) (enc (p1 ++ p2 ++ r)) (length (enc a)) (length (enc (a ++ t1))) (length (enc p1)) q0
     else Some (length (enc p1), q0)) = Some (length (enc (p1 ++ p2)), xorb q0 (odd_quotes t2))).
  { destruct (Nat.ltb_spec (length (enc (a ++ t1))) (length (enc (a ++ t1 ++ t2)))) as [Hlt|Hge].
    - rewrite app_assoc. apply track_ok; auto.
      + apply Forall_app in Hs; tauto.
      + rewrite enc_app, app_length. lia.
    - assert (t2 = []) as ->.
      { rewrite app_assoc, (enc_app (a ++ t1)), app_length in Hge. apply enc_nil; auto. destruct (enc t2); [auto|cbn in Hge; lia]. }
      destruct p2; [|discriminate]. rewrite app_nil_r. cbn. destruct q0; reflexivity. }
  rewrite E. reflexivity.
Qed.

Notation ins := (insert lower forward_word e).

Lemma skipn_enc a b : skipn (length (enc a)) (enc (a ++ b)) = enc b.
Proof. rewrite enc_app. apply skipn_app_exact. reflexivity. Qed.

Lemma retype l0 l1 t : b_insert (b_remove (typed (l0 ++ l1)) (length (enc l0)) (length (enc (l0 ++ l1)))) (enc t) =
  typed (l0 ++ t).
Proof. unfold typed. rewrite !enc_app. apply b_retype. Qed.

(** What is in the line before the cursor is moved back. *)
Lemma rest_line act fuel g a t1 t2 p1 p2 r w quote : last_word w a t1 ->
  let final := if e_original e then a ++ t1 ++ p2 ++ r else a ++ t1 ++ t2 ++ r in
  insert_rest forward_word e fuel act g (typed (a ++ t1 ++ t2)) (length (enc a)) (enc (p1 ++ p2 ++ r)) w
      (length (enc p1)) (length (enc (p1 ++ p2))) quote =
  let b1 := typed final in
  let text := enc (p1 ++ p2 ++ r) in
  let q := length (enc (p1 ++ p2)) in
  let end_offset := if e_original e then length (enc a) + q else length (enc (a ++ t1 ++ t2)) in
  match act with
  | to_end => Some (true, g_suppressed g b1, b1)
  | _ =>
      let b2 := b_set_cursor b1 end_offset in
      let r :=
        match act with
        | next_full_word =>
            match skip_blanks fuel text q with
            | None => None
            | Some q1 => match skip_word fuel text q1 quote with
                         | None => None
                         | Some q2 => Some (b_set_cursor b2 (b_cur b2 + (q2 - q)), q2)
                         end
            end
        | _ =>
            let b3 := mkBuf (b_text b2) (forward_word (b_text b2) (b_cur b2)) in
            match resync fuel text q q (Z.of_nat (b_cur b3) - Z.of_nat end_offset) with
            | None => None
            | Some q2 => Some (b3, q2)
            end
        end in
      match r with
      | None => None
      | Some (b3, q2) =>
          if Nat.ltb (b_cur b3) (length (b_text b3)) then
            let b4 := b_remove b3 (b_cur b3) (length (b_text b3)) in
            Some (true, mkMgr (Some q2) (b_text b4) (u_set_line (g_sugs g) (b_text b4)) (g_endword g)
                              (g_paused g) (g_suppress g) (g_gen g), b4)
          else Some (true, g_suppressed g b3, b3)
      end
  end.
Proof.
  intro Hw. cbv zeta. unfold insert_rest. cbv zeta. rewrite (last_word_max _ _ _ Hw).
  assert (E : b_insert (b_remove (typed (a ++ t1 ++ t2))
            (if e_original e then length (enc (a ++ t1)) else length (b_text (typed (a ++ t1 ++ t2))))
            (length (b_text (typed (a ++ t1 ++ t2)))))
         (skipn (if e_original e then length (enc p1) else length (enc (p1 ++ p2))) (enc (p1 ++ p2 ++ r))) =
     typed (if e_original e then a ++ t1 ++ p2 ++ r else a ++ t1 ++ t2 ++ r)).
  { cbn [typed b_text]. fold (typed (a ++ t1 ++ t2)). destruct (e_original e).
    - rewrite skipn_enc, !(app_assoc a t1). apply retype.
    - rewrite (app_assoc p1 p2 r), skipn_enc.
      pose proof (retype (a ++ t1 ++ t2) [] r) as H. rewrite app_nil_r in H. rewrite H, <- !app_assoc. reflexivity. }
  rewrite E. destruct act; reflexivity.
Qed.
End Accept.
