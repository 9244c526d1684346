(** C70: what is shown as suggestion, and what accepting it makes of the line. *)
From Verif Require Import Base UtfModel UtfSpec UtfProofs TokProofs CmpModel CmpSpec CmpProofs CmpProperties
  SugModel SugSpec SugProofs.

Definition kk (lower : N -> N) (e : env) : N -> N := key lower (e_mode e) (e_fuzzy e) true.

Lemma agree_prefix a : forall b, agree a b = length a <-> exists c, b = a ++ c.
Proof.
  induction a as [|x a IH]; intro b.
  - split; [intros _; exists b; reflexivity|reflexivity].
  - destruct b as [|y b]; [cbn; split; [discriminate|intros [c Hc]; discriminate]|]. cbn [agree length].
    destruct (N.eqb_spec x y) as [->|Hxy].
    + split; intro H.
      * injection H as H. apply IH in H as [c ->]. exists c. reflexivity.
      * destruct H as [c Hc]. injection Hc as Hc. f_equal. apply IH. exists c. exact Hc.
    + split; [discriminate|]. intros [c Hc]. injection Hc as Hc _. congruence.
Qed.

Lemma agree_split {A} (a b : list (N * A)) : agree (map fst a) (map fst b) = length a ->
  exists b1 b2, b = b1 ++ b2 /\ map fst b1 = map fst a /\ b1 = firstn (length a) b.
Proof.
  intro H. rewrite <- (map_length fst a) in H. apply agree_prefix in H as [c Hc].
  exists (firstn (length a) b), (skipn (length a) b). split; [symmetry; apply firstn_skipn|]. split; [|reflexivity].
  rewrite <- firstn_map, Hc. apply firstn_app_exact. rewrite map_length. reflexivity.
Qed.

Lemma elements_concat k vs es : elements k vs es -> flat_map snd es = vs.
Proof. intro H. induction H; cbn; auto; [f_equal; auto|]. rewrite IHelements. reflexivity. Qed.

Lemma plain_join k t p u : plain k t -> alike k t p -> plain k (p ++ u) -> plain k (t ++ u).
Proof.
  intros Ht Ha. revert Ht. induction Ha as [|x y t p Hxy Ha IH]; intros Ht Hp; [exact Hp|].
  cbn [app plain] in *. destruct Ht as [Ht1 Ht2], Hp as [Hp1 Hp2]. split; [|auto].
  intro E. destruct t as [|c t]; [|exact (Ht1 E)]. inversion Ha; subst. apply Hp1. congruence.
Qed.

Section Shown.
Variable lower : N -> N.
Variable e : env.
Notation k := (kk lower e).

(** Comparing the line with the suggestion tells whether the line is a prefix. *)
Lemma compare_prefix ml el p mr er t s est ess : Forall scalar t -> Forall scalar s ->
  text_at ml el p (enc t) -> text_at mr er 0 (enc s) -> elements k t est -> elements k s ess ->
  exists p' q', compare lower e ml el p mr er 0 = Some (p', q') /\
   ((exists es1 es2, ess = es1 ++ es2 /\ map fst es1 = map fst est /\ more ml el p' = Some false /\
      p' = p + length (enc t) /\ q' = length (enc (flat_map snd es1)) /\
      more mr er q' = Some (match flat_map snd es2 with [] => false | _ => true end)) \/
    ((forall es1 es2, ess = es1 ++ es2 -> map fst es1 <> map fst est) /\ more ml el p' = Some true)).
Proof.
  intros Ht Hs Hmt Hms Het Hes. unfold kk in *.
  destruct (compare_any lower e ml el p mr er 0 t s Ht Hs Hmt Hms est ess Het Hes) as (l' & r' & E & Hl & Hr & Hl' & Hr').
  set (n := agree (map fst est) (map fst ess)) in *. eexists _, _. split; [exact E|].
  pose proof Ht as Ht2. rewrite Hl in Hmt, Ht2. rewrite enc_app in Hmt. apply text_at_suffix in Hmt.
  apply Forall_app in Ht2 as [_ Ht2].
  pose proof Hs as Hs2. rewrite Hr in Hms, Hs2. rewrite enc_app in Hms. apply text_at_suffix in Hms.
  apply Forall_app in Hs2 as [_ Hs2].
  destruct (Nat.eq_dec n (length est)) as [En|En].
  - left. destruct (agree_split est ess En) as (es1 & es2 & E1 & E2 & E3). exists es1, es2. split; [auto|]. split; [auto|].
    assert (l' = []) as -> by (apply Hl'; auto). rewrite app_nil_r in Hl.
    rewrite En, <- E3 in *. split; [apply (more_enc _ _ _ []); auto|].
    split; [rewrite <- Hl; reflexivity|]. split; [reflexivity|].
    rewrite (more_enc _ _ _ r' Hs2 Hms). f_equal.
    rewrite <- (elements_concat _ _ _ Hes), E1, flat_map_app in Hr. apply app_inv_head in Hr. rewrite Hr. reflexivity.
  - right. split.
    + intros es1 es2 -> E1. apply En. unfold n. rewrite map_app, E1, <- (map_length fst est). apply agree_prefix. eauto.
    + rewrite (more_enc _ _ _ l' Ht2 Hmt). destruct l'; [exfalso; apply En; apply Hl'; auto|reflexivity].
Qed.

(** A suggestion is shown exactly if the line from its offset on is a prefix of it, up to case, accents and the length of
    runs of separators; what is shown is the line as typed and the rest of the suggestion. *)
Theorem shown_iff : forall g first more_items a t s est ess v, e_list_active e = false ->
  Forall scalar (a ++ t) -> Forall scalar s ->
  u_items (g_sugs g) = first :: more_items -> i_text first = enc s -> i_off first = length (enc a) ->
  elements k t est -> elements k s ess ->
  get_visible lower e g (typed (a ++ t)) = Some v <->
    (exists es1 es2, ess = es1 ++ es2 /\ map fst es1 = map fst est /\
       v = Some (enc (if e_inline e then a ++ t ++ flat_map snd es2 else a ++ t))) \/
    ((forall es1 es2, ess = es1 ++ es2 -> map fst es1 <> map fst est) /\ v = None).
Proof.
  intros g first mi a t s est ess v Hla Hl Hs Hi Htx Hof Het Hes.
  assert (Ht : Forall scalar t) by (apply Forall_app in Hl; tauto).
  pose proof (ta_end [] s Hs) as Hts. cbn [app enc flat_map length] in Hts. change (flat_map utf8 s) with (enc s) in Hts.
  destruct (compare_prefix _ _ _ _ _ t s est ess Ht Hs (ta_nul a t Ht) Hts Het Hes) as (p' & q' & E & Hcase).
  unfold get_visible. rewrite Hi, Hla, Htx, Hof. cbn [typed b_text].
  replace (length (enc (a ++ t)) <? length (enc a)) with false by (rewrite enc_app, app_length; lia).
  rewrite E.
  destruct Hcase as [(es1 & es2 & E1 & E2 & Hm & Hp & Hq & _)|[Hno Hm]]; rewrite Hm.
  - assert (Ev : (if e_inline e then firstn p' (enc (a ++ t)) ++ skipn q' (enc s) else enc (a ++ t)) =
                 enc (if e_inline e then a ++ t ++ flat_map snd es2 else a ++ t)).
    { destruct (e_inline e); [|reflexivity]. rewrite Hp, Hq, <- app_length, <- enc_app, firstn_all.
      rewrite <- (elements_concat _ _ _ Hes), E1, flat_map_app, skipn_enc, <- enc_app, <- app_assoc. reflexivity. }
    rewrite Ev. split.
    + intros H. injection H as <-. left. exists es1, es2. auto.
    + intros [(f1 & f2 & F1 & F2 & ->)|[Hno _]].
      * rewrite E1 in F1. assert (length es1 = length f1).
        { rewrite <- (map_length fst es1), <- (map_length fst f1), E2, F2. reflexivity. }
        apply (f_equal (skipn (length es1))) in F1. rewrite skipn_app_exact in F1 by reflexivity.
        rewrite skipn_app_exact in F1 by auto. subst f2. auto.
      * exfalso. exact (Hno es1 es2 E1 E2).
  - split.
    + intros H. injection H as <-. right. auto.
    + intros [(f1 & f2 & F1 & F2 & _)|[_ ->]]; [exfalso; exact (Hno f1 f2 F1 F2)|auto].
Qed.
End Shown.
Print Assumptions shown_iff.

Section Accept.
Variable lower : N -> N.
Variable forward_word : list N -> nat -> nat.
Variable e : env.
Notation k := (kk lower e).
Notation ins := (insert lower forward_word e).

(** Without runs of separators, the line as typed and the rest of the suggestion are shown. *)
Theorem shown_plain : forall g a t p r, ready e -> Forall scalar (a ++ t) -> Forall scalar (p ++ r) ->
  offers g a (p ++ r) -> plain k t -> plain k (p ++ r) -> alike k t p ->
  get_visible lower e g (typed (a ++ t)) = Some (Some (enc (a ++ t ++ r))).
Proof.
  intros g a t p r (He & Hin & Hla) Hl Hs (src & deco & h & q & Hi & _) Hpt Hps Ha.
  refine (proj2 (shown_iff lower e g _ _ a t (p ++ r) _ _ _ Hla Hl Hs Hi eq_refl eq_refl
    (plain_elements lower e t Hpt) (plain_elements lower e _ Hps)) (or_introl _)).
  exists (singles k p), (singles k r). split; [unfold singles; apply map_app|]. split.
  - unfold singles. rewrite !map_map. cbn [fst]. clear - Ha. unfold kk in *.
    induction Ha as [|x y t p Hxy Ha IH]; [reflexivity|]. cbn [map]. rewrite Hxy, IH. reflexivity.
  - unfold kk. rewrite Hin, singles_snd. reflexivity.
Qed.

(** Accepting all of a suggestion without "original capitalization": the line becomes what was shown. *)
Theorem accept_shown : forall fuel g a t1 t2 p1 p2 r w, ready e -> e_original e = false ->
  Forall scalar (a ++ t1 ++ t2) -> Forall scalar (p1 ++ p2 ++ r) -> offers g a (p1 ++ p2 ++ r) ->
  g_endword g = Some w -> last_word w a t1 ->
  plain k (t1 ++ t2) -> plain k (p1 ++ p2 ++ r) -> alike k t1 p1 -> alike k t2 p2 -> length t2 < fuel ->
  exists g' b', ins fuel to_end g (typed (a ++ t1 ++ t2)) = Some (true, g', b') /\
    b' = typed (a ++ t1 ++ t2 ++ r) /\
    get_visible lower e g (typed (a ++ t1 ++ t2)) = Some (Some (b_text b')) /\
    u_items (g_sugs g') = [] /\ g_suppress g' = true.
Proof.
  intros fuel g a t1 t2 p1 p2 r w Hr Ho Hl Hs Hof Hw Hlw Hpt Hps H1 H2 Hf.
  pose proof (alike_len lower e t2 p2 H2) as Hlen.
  rewrite (insert_core lower forward_word e fuel to_end g a t1 t2 p1 p2 r w Hr Hl Hs Hof Hw Hlw
     (plain_app_l lower e _ _ Hpt) Hps H1 Hlen ltac:(congruence) Hf).
  rewrite (rest_line forward_word e to_end fuel g a t1 t2 p1 p2 r w _ Hlw). rewrite Ho. cbv zeta.
  eexists _, _. split; [reflexivity|]. split; [reflexivity|]. split; [|split; reflexivity].
  cbn [typed b_text]. rewrite (app_assoc p1 p2 r) in Hs, Hof, Hps.
  rewrite (app_assoc t1 t2 r). apply (shown_plain g a (t1 ++ t2) (p1 ++ p2) r); auto. apply Forall2_app; auto.
Qed.

(** With original capitalization: a suggestion for the whole line replaces it... *)
Theorem accept_whole : forall fuel g t s est es1 es2, ready e -> e_original e = true ->
  Forall scalar t -> Forall scalar s -> offers g [] s ->
  elements k t est -> elements k s (es1 ++ es2) -> map fst es1 = map fst est -> flat_map snd es2 <> [] ->
  exists g', ins fuel to_end g (typed t) = Some (true, g', typed s) /\ u_items (g_sugs g') = [] /\ g_suppress g' = true.
Proof.
  intros fuel g t s est es1 es2 (Hen & Hin & Hla) Ho Ht Hs Hof Het Hes Heq Hne.
  destruct (offers_more g [] s Hs Hof) as (src & deco & h & q & H1 & H2 & H3).
  unfold insert. rewrite Hen, Hin, H1, Hla, H2. cbn [negb orb i_text i_off typed b_text b_cur]. cbv zeta.
  rewrite H3, Nat.eqb_refl, Ho. cbn [negb orb andb enc flat_map length Nat.eqb].
  pose proof (ta_end [] s Hs) as Hts. cbn [app enc flat_map length] in Hts. change (flat_map utf8 s) with (enc s) in *.
  pose proof (ta_end [] t Ht) as Htt. cbn [app enc flat_map length] in Htt. change (flat_map utf8 t) with (enc t) in *.
  destruct (compare_prefix lower e _ _ _ _ _ t s est _ Ht Hs Htt Hts Het Hes) as (p' & q' & E & Hcase).
  rewrite E. destruct Hcase as [(f1 & f2 & F1 & F2 & Hm & Hp & Hq & Hm2)|[Hno _]]; [|exfalso; exact (Hno es1 es2 eq_refl Heq)].
  rewrite Hm, Hm2.
  assert (f2 = es2) as ->.
  { assert (length es1 = length f1) by (rewrite <- (map_length fst es1), <- (map_length fst f1); congruence).
    apply (f_equal (skipn (length es1))) in F1. rewrite skipn_app_exact in F1 by reflexivity.
    rewrite skipn_app_exact in F1 by auto. auto. }
  destruct (flat_map snd es2) as [|x y]; [contradiction|]. cbn [negb andb].
  pose proof (retype [] t s) as E2. cbn [app enc flat_map length] in E2. change (flat_map utf8 t) with (enc t) in E2.
  fold (typed t). rewrite E2. eexists. split; [reflexivity|]. split; reflexivity.
Qed.

(** ... and otherwise the last word and what follows it is replaced. *)
Theorem accept_original : forall fuel g a t1 t2 p1 p2 r w, ready e -> e_original e = true -> a <> [] ->
  Forall scalar (a ++ t1 ++ t2) -> Forall scalar (p1 ++ p2 ++ r) -> offers g a (p1 ++ p2 ++ r) ->
  g_endword g = Some w -> last_word w a t1 ->
  plain k (t1 ++ t2) -> plain k (p1 ++ p2 ++ r) -> alike k t1 p1 -> alike k t2 p2 -> length t2 < fuel ->
  exists g', ins fuel to_end g (typed (a ++ t1 ++ t2)) = Some (true, g', typed (a ++ t1 ++ p2 ++ r)) /\
    u_items (g_sugs g') = [] /\ g_suppress g' = true.
Proof.
  intros fuel g a t1 t2 p1 p2 r w Hr Ho Ha Hl Hs Hof Hw Hlw Hpt Hps H1 H2 Hf.
  pose proof (alike_len lower e t2 p2 H2) as Hlen.
  rewrite (insert_core lower forward_word e fuel to_end g a t1 t2 p1 p2 r w Hr Hl Hs Hof Hw Hlw
     (plain_app_l lower e _ _ Hpt) Hps H1 Hlen ltac:(auto) Hf).
  rewrite (rest_line forward_word e to_end fuel g a t1 t2 p1 p2 r w _ Hlw). rewrite Ho. cbv zeta.
  eexists. split; [reflexivity|]. split; reflexivity.
Qed.

(** The line in front of an accepted word. *)
Definition base (a t1 t2 p2 : list N) : list N := if e_original e then a ++ t1 ++ p2 else a ++ t1 ++ t2.

Lemma base_end a t1 t2 p1 p2 : (e_original e = true -> length (enc t1) = length (enc p1)) ->
  (if e_original e then length (enc a) + length (enc (p1 ++ p2)) else length (enc (a ++ t1 ++ t2))) =
  length (enc (base a t1 t2 p2)).
Proof.
  unfold base. destruct (e_original e); [|reflexivity]. intro H. specialize (H eq_refl).
  rewrite !enc_app, !app_length. lia.
Qed.
Lemma base_final a t1 t2 p2 r :
  (if e_original e then a ++ t1 ++ p2 ++ r else a ++ t1 ++ t2 ++ r) = base a t1 t2 p2 ++ r.
Proof. unfold base. destruct (e_original e); rewrite <- !app_assoc; reflexivity. Qed.

(** Accepting the next full word adds the blanks and the word that come next in the suggestion, quotes counted from the
    line's last word on, and goes on offering the rest. *)
Theorem accept_word : forall fuel g a t1 t2 p1 p2 r w wd rest, ready e ->
  Forall scalar (a ++ t1 ++ t2) -> Forall scalar (p1 ++ p2 ++ r) -> offers g a (p1 ++ p2 ++ r) ->
  g_endword g = Some w -> last_word w a t1 ->
  plain k (t1 ++ t2) -> plain k (p1 ++ p2 ++ r) -> alike k t1 p1 -> length t2 = length p2 ->
  (e_original e = true -> length (enc t1) = length (enc p1)) ->
  full_word (inside (a ++ t1 ++ t2) w t2) r wd rest -> length t2 < fuel -> length r < fuel ->
  exists g', ins fuel next_full_word g (typed (a ++ t1 ++ t2)) = Some (true, g', typed (base a t1 t2 p2 ++ wd)) /\
    (rest = [] -> u_items (g_sugs g') = [] /\ g_suppress g' = true) /\
    (rest <> [] -> offers g' a (p1 ++ p2 ++ r) /\ g_endword g' = Some w).
Proof.
  intros fuel g a t1 t2 p1 p2 r w wd rest Hr Hl Hs Hof Hw Hlw Hpt Hps H1 Hlen Hb Hfw Hf Hf2.
  rewrite (insert_core lower forward_word e fuel next_full_word g a t1 t2 p1 p2 r w Hr Hl Hs Hof Hw Hlw
     (plain_app_l lower e _ _ Hpt) Hps H1 Hlen ltac:(discriminate) Hf).
  rewrite (rest_line forward_word e next_full_word fuel g a t1 t2 p1 p2 r w _ Hlw). cbv zeta.
  rewrite base_final, (base_end a t1 t2 p1 p2 Hb).
  set (bs := base a t1 t2 p2). set (qv := inside _ _ _) in *.
  destruct Hfw as (bl & w1 & -> & -> & Hbl & Hu & Hwf).
  assert (Sr : Forall scalar (bl ++ w1 ++ rest)).
  { apply Forall_app in Hs as [_ Hs]. apply Forall_app in Hs. tauto. }
  rewrite !app_length in Hf2.
  rewrite (app_assoc p1 p2).
  rewrite (skip_blanks_ok bl fuel (p1 ++ p2) (w1 ++ rest) Sr Hbl Hu ltac:(lia)).
  apply Forall_app in Sr as [_ Sr].
  destruct (skip_word_ok _ _ _ _ Hwf fuel ((p1 ++ p2) ++ bl) Sr ltac:(lia)) as [_ E].
  rewrite <- (app_assoc (p1 ++ p2) bl) in E. rewrite E. clear E.
  set (m := length (enc bs)).
  assert (Hm : Nat.min m (length (enc (bs ++ bl ++ w1 ++ rest))) = m) by (rewrite enc_app, app_length; unfold m; lia).
  assert (Hd : length (enc (((p1 ++ p2) ++ bl) ++ w1)) - length (enc (p1 ++ p2)) = length (enc (bl ++ w1))).
  { rewrite !enc_app, !app_length. lia. }
  assert (Hm2 : Nat.min (m + length (enc (bl ++ w1))) (length (enc (bs ++ bl ++ w1 ++ rest))) = length (enc (bs ++ bl ++ w1))).
  { rewrite !enc_app, !app_length. unfold m. lia. }
  change (b_cur (b_set_cursor (typed (bs ++ bl ++ w1 ++ rest)) m))
    with (Nat.min m (length (enc (bs ++ bl ++ w1 ++ rest)))).
  rewrite Hm, Hd.
  replace (b_set_cursor (b_set_cursor (typed (bs ++ bl ++ w1 ++ rest)) m) (m + length (enc (bl ++ w1))))
    with (mkBuf (enc (bs ++ bl ++ w1 ++ rest)) (length (enc (bs ++ bl ++ w1))))
    by (unfold b_set_cursor, typed; cbn [b_text b_cur]; rewrite Hm2; reflexivity).
  cbn [b_text b_cur].
  assert (Srest : Forall scalar rest) by (apply Forall_app in Sr; tauto).
  destruct (Nat.ltb_spec (length (enc (bs ++ bl ++ w1))) (length (enc (bs ++ bl ++ w1 ++ rest)))) as [Hlt|Hge].
  - assert (Eb : b_remove (mkBuf (enc (bs ++ bl ++ w1 ++ rest)) (length (enc (bs ++ bl ++ w1))))
       (length (enc (bs ++ bl ++ w1))) (length (enc (bs ++ bl ++ w1 ++ rest))) = typed (bs ++ bl ++ w1)).
    { unfold b_remove. cbn [b_text b_cur]. rewrite Nat.min_id.
      replace (length (enc (bs ++ bl ++ w1 ++ rest)) <? length (enc (bs ++ bl ++ w1))) with false by lia.
      replace (bs ++ bl ++ w1 ++ rest) with ((bs ++ bl ++ w1) ++ rest) by (rewrite <- !app_assoc; reflexivity).
      rewrite skipn_all, app_nil_r, (enc_app (bs ++ bl ++ w1) rest), firstn_app_exact by reflexivity.
      rewrite Nat.min_id. reflexivity. }
    rewrite Eb. eexists. split; [reflexivity|]. split.
    + intros ->. rewrite app_nil_r in Hlt. lia.
    + intros _. split; [|exact Hw].
      destruct Hof as (src & deco & h & q & Hi & Hq & Hlt').
      exists src, deco, h, (length (enc (((p1 ++ p2) ++ bl) ++ w1))). cbn [g_sugs u_set_line u_items g_iter].
      split; [rewrite <- app_assoc; exact Hi|]. split; [reflexivity|].
      clear - Hlt. rewrite !enc_app in *. rewrite !app_length in *. lia.
  - assert (rest = []) as ->.
    { apply enc_nil; [auto|]. rewrite !enc_app, !app_length in Hge. destruct (enc rest); [auto|cbn in Hge; lia]. }
    rewrite app_nil_r. eexists. split; [reflexivity|]. split; [intros _; split; reflexivity|contradiction].
Qed.

(** Accepting word after word ends up with all of the suggestion. *)
Fixpoint words (fuel n : nat) (g : mgr) (b : buf) : option (mgr * buf) :=
  match n with
  | O => Some (g, b)
  | S n => match ins fuel next_full_word g b with
           | Some (true, g', b') => words fuel n g' b'
           | _ => None
           end
  end.

Theorem accept_words : forall m fuel g a t1 t2 p1 p2 r w, length r <= m -> r <> [] -> ready e ->
  Forall scalar (a ++ t1 ++ t2) -> Forall scalar (p1 ++ p2 ++ r) -> offers g a (p1 ++ p2 ++ r) ->
  g_endword g = Some w -> last_word w a t1 ->
  plain k (t1 ++ t2) -> plain k (p1 ++ p2 ++ r) -> alike k t1 p1 -> alike k t2 p2 ->
  (e_original e = true -> length (enc t1) = length (enc p1)) ->
  length t2 + length r < fuel ->
  exists n g', n <= length r /\ words fuel n g (typed (a ++ t1 ++ t2)) = Some (g', typed (base a t1 t2 p2 ++ r)) /\
    u_items (g_sugs g') = [] /\ g_suppress g' = true.
Proof.
  induction m as [|m IH]; intros fuel g a t1 t2 p1 p2 r w Hm Hne Hr Hl Hs Hof Hw Hlw Hpt Hps H1 H2 Hb Hf.
  { destruct r; [contradiction|cbn in Hm; lia]. }
  pose proof (alike_len lower e t2 p2 H2) as Hlen.
  destruct (full_word_exists (inside (a ++ t1 ++ t2) w t2) r) as (wd & rest & Hfw).
  destruct (accept_word fuel g a t1 t2 p1 p2 r w wd rest Hr Hl Hs Hof Hw Hlw Hpt Hps H1 Hlen Hb Hfw ltac:(lia) ltac:(lia))
    as (g1 & E1 & Hend & Hgo).
  pose proof (full_word_progress _ _ _ _ Hfw Hne) as Hwd. pose proof (full_word_split _ _ _ _ Hfw) as Er.
  destruct rest as [|x rest].
  - rewrite app_nil_r in Er. subst wd. destruct (Hend eq_refl) as [Hi Hsu].
    exists 1, g1. split; [destruct r; [contradiction|cbn; lia]|]. cbn [words]. rewrite E1. auto.
  - destruct (Hgo ltac:(discriminate)) as [Hof1 Hw1].
    set (rest' := x :: rest) in *. subst r.
    set (t2' := if e_original e then p2 ++ wd else t2 ++ wd).
    assert (Ebase : base a t1 t2 p2 ++ wd = a ++ t1 ++ t2').
    { unfold base, t2'. destruct (e_original e); rewrite <- !app_assoc; reflexivity. }
    assert (Sall : Forall scalar p2 /\ Forall scalar wd).
    { apply Forall_app in Hs as [_ Hs]. apply Forall_app in Hs as [Hs1 Hs]. apply Forall_app in Hs as [Hs2 _]. auto. }
    assert (Halike : alike k t2' (p2 ++ wd)).
    { unfold t2', alike in *. assert (Hrefl : forall u : list N, Forall2 (fun a b => k a = k b) u u)
        by (induction u; constructor; auto).
      destruct (e_original e); [apply Hrefl|apply Forall2_app; auto]. }
    assert (Hplain' : plain k (t1 ++ t2')).
    { assert (Hpp : plain k (p1 ++ p2 ++ wd)).
      { replace (p1 ++ p2 ++ wd ++ rest') with ((p1 ++ p2 ++ wd) ++ rest') in Hps by (rewrite <- !app_assoc; reflexivity).
        exact (plain_app_l lower e _ _ Hps). }
      unfold t2'. destruct (e_original e).
      - exact (plain_join k t1 p1 _ (plain_app_l lower e _ _ Hpt) H1 Hpp).
      - rewrite app_assoc in Hpp |- *. exact (plain_join k _ (p1 ++ p2) _ Hpt (Forall2_app H1 H2) Hpp). }
    destruct (IH fuel g1 a t1 t2' p1 (p2 ++ wd) rest' w) as (n & g' & Hn & E2 & Hi & Hsu); auto.
    + rewrite app_length in Hm. destruct wd; [contradiction|cbn [length] in Hm; lia].
    + discriminate.
    + unfold t2'. destruct Sall. apply Forall_app in Hl as [Ha Hl]. apply Forall_app in Hl as [Ht1 Ht2].
      destruct (e_original e); repeat (apply Forall_app; split); auto.
    + rewrite <- app_assoc. exact Hs.
    + rewrite <- app_assoc. exact Hof1.
    + rewrite <- app_assoc. exact Hps.
    + unfold t2'. rewrite app_length in Hf. destruct (e_original e); rewrite app_length; lia.
    + exists (S n), g'. split.
      { rewrite app_length. destruct wd; [contradiction|cbn [length]; lia]. }
      cbn [words]. rewrite E1, Ebase, E2. split; [|auto]. f_equal. f_equal. f_equal.
      unfold base, t2'. destruct (e_original e); rewrite <- !app_assoc; reflexivity.
Qed.

(** Accepting the next word, where Readline's forward-word moves to some place between the end of the line as accepted so far
    and the end of the suggestion: the line ends there. *)
Theorem accept_next : forall fuel g a t1 t2 p1 p2 r w, ready e ->
  Forall scalar (a ++ t1 ++ t2) -> Forall scalar (p1 ++ p2 ++ r) -> offers g a (p1 ++ p2 ++ r) ->
  g_endword g = Some w -> last_word w a t1 ->
  plain k (t1 ++ t2) -> plain k (p1 ++ p2 ++ r) -> alike k t1 p1 -> length t2 = length p2 ->
  (e_original e = true -> length (enc t1) = length (enc p1)) -> length t2 < fuel -> length r < fuel ->
  let final := enc (base a t1 t2 p2 ++ r) in
  let pos := forward_word final (length (enc (base a t1 t2 p2))) in
  length (enc (base a t1 t2 p2)) <= pos <= length final ->
  exists g', ins fuel next_word g (typed (a ++ t1 ++ t2)) = Some (true, g', mkBuf (firstn pos final) pos) /\
    (pos = length final -> u_items (g_sugs g') = [] /\ g_suppress g' = true) /\
    (pos < length final -> u_items (g_sugs g') = u_items (g_sugs g) /\ g_endword g' = Some w).
Proof.
  intros fuel g a t1 t2 p1 p2 r w Hr Hl Hs Hof Hw Hlw Hpt Hps H1 Hlen Hb Hf Hf2. cbv zeta. intro Hpos.
  rewrite (insert_core lower forward_word e fuel next_word g a t1 t2 p1 p2 r w Hr Hl Hs Hof Hw Hlw
     (plain_app_l lower e _ _ Hpt) Hps H1 Hlen ltac:(discriminate) Hf).
  rewrite (rest_line forward_word e next_word fuel g a t1 t2 p1 p2 r w _ Hlw). cbv zeta.
  rewrite base_final, (base_end a t1 t2 p1 p2 Hb).
  set (bs := base a t1 t2 p2) in *.
  replace (b_set_cursor (typed (bs ++ r)) (length (enc bs))) with (mkBuf (enc (bs ++ r)) (length (enc bs)))
    by (unfold b_set_cursor, typed; cbn [b_text b_cur]; rewrite enc_app, app_length; f_equal; lia).
  cbn [b_text b_cur]. set (pos := forward_word _ _) in *.
  assert (Sr : Forall scalar (r ++ [])).
  { rewrite app_nil_r. apply Forall_app in Hs as [_ Hs]. apply Forall_app in Hs. tauto. }
  destruct (resync_ok r fuel (p1 ++ p2) [] [] (Z.of_nat pos - Z.of_nat (length (enc bs))) Sr Hf2) as (w1 & w2 & _ & E & _).
  { cbn [app]. rewrite enc_app, app_length in Hpos. lia. }
  cbn [app] in E. rewrite !app_nil_r, <- app_assoc in E. rewrite E. cbn [b_text b_cur].
  destruct (Nat.ltb_spec pos (length (enc (bs ++ r)))) as [Hlt|Hge].
  - assert (Eb : b_remove (mkBuf (enc (bs ++ r)) pos) pos (length (enc (bs ++ r))) = mkBuf (firstn pos (enc (bs ++ r))) pos).
    { unfold b_remove. cbn [b_text b_cur]. rewrite Nat.min_id. replace (length (enc (bs ++ r)) <? pos) with false by lia.
      rewrite skipn_all, app_nil_r, firstn_length. f_equal. lia. }
    rewrite Eb. eexists. split; [reflexivity|]. split; [lia|]. intros _. split; [reflexivity|exact Hw].
  - eexists. split.
    + rewrite firstn_all2 by lia. reflexivity.
    + split; [intros _; split; reflexivity|lia].
Qed.

(** If the line does not agree with the suggestion before the last word, nothing happens to the line and the suggestion is
    dropped. *)
Theorem reject_early : forall fuel act g a t1 t2 s est ess w, ready e ->
  Forall scalar (a ++ t1 ++ t2) -> Forall scalar s -> offers g a s ->
  g_endword g = Some w -> w = length (enc (a ++ t1)) ->
  (e_original e = true -> act = to_end -> a <> []) ->
  elements k t1 est -> elements k s ess -> (forall es1 es2, ess = es1 ++ es2 -> map fst es1 <> map fst est) ->
  exists g', ins fuel act g (typed (a ++ t1 ++ t2)) = Some (false, g', typed (a ++ t1 ++ t2)) /\ u_items (g_sugs g') = [].
Proof.
  intros fuel act g a t1 t2 s est ess w (Hen & Hin & Hla) Hl Hs Hof Hw -> Hact Het Hes Hno.
  destruct (offers_more g a s Hs Hof) as (src & deco & h & q & H1 & H2 & H3).
  assert (Hsl : Forall scalar a /\ Forall scalar t1 /\ Forall scalar t2).
  { apply Forall_app in Hl as [Hl1 Hl]. apply Forall_app in Hl as [Hl2 Hl3]. auto. }
  destruct Hsl as (Sa & S1 & S2).
  unfold insert. rewrite Hen, Hin, H1, Hla, H2. cbn [negb orb i_text i_off typed b_text b_cur]. cbv zeta.
  rewrite H3, Nat.eqb_refl. cbn [negb orb].
  assert ((e_original e && match act with to_end => true | _ => false end && (length (enc a) =? 0))%bool = false) as ->.
  { destruct (e_original e); [|reflexivity]. destruct act; try reflexivity. cbn [andb].
    apply Nat.eqb_neq. specialize (Hact eq_refl eq_refl). intro E. apply Hact.
    apply enc_nil; auto. destruct (enc a); [auto|discriminate]. }
  rewrite Hw.
  assert (t1 <> []) as Hne.
  { intros ->. inversion Het; subst. exact (Hno [] ess eq_refl eq_refl). }
  assert (length (enc a) < length (enc (a ++ t1))) as Hlt.
  { rewrite enc_app, app_length. pose proof (enc_len t1 S1). destruct t1; [contradiction|cbn [length] in *; lia]. }
  apply Nat.ltb_lt in Hlt. rewrite Hlt.
  pose proof (ta_end [] s Hs) as Hts. cbn [app enc flat_map length] in Hts. change (flat_map utf8 s) with (enc s) in *.
  destruct (compare_prefix lower e _ _ _ _ _ t1 s est ess S1 Hs (ta_mid a t1 t2 S1) Hts Het Hes) as (p' & q' & E & Hcase).
  rewrite E. destruct Hcase as [(f1 & f2 & F1 & F2 & _)|[_ Hm]]; [exfalso; exact (Hno f1 f2 F1 F2)|].
  rewrite Hm. eexists. split; reflexivity.
Qed.

(** The same for a suggestion for the whole line, wherever they disagree. *)
Theorem reject_whole : forall fuel g t s est ess, ready e -> e_original e = true ->
  Forall scalar t -> Forall scalar s -> offers g [] s ->
  elements k t est -> elements k s ess -> (forall es1 es2, ess = es1 ++ es2 -> map fst es1 <> map fst est) ->
  exists g', ins fuel to_end g (typed t) = Some (false, g', typed t) /\ u_items (g_sugs g') = [].
Proof.
  intros fuel g t s est ess (Hen & Hin & Hla) Ho Ht Hs Hof Het Hes Hno.
  destruct (offers_more g [] s Hs Hof) as (src & deco & h & q & H1 & H2 & H3).
  unfold insert. rewrite Hen, Hin, H1, Hla, H2. cbn [negb orb i_text i_off typed b_text b_cur]. cbv zeta.
  rewrite H3, Nat.eqb_refl, Ho. cbn [negb orb andb enc flat_map length Nat.eqb].
  pose proof (ta_end [] s Hs) as Hts. cbn [app enc flat_map length] in Hts. change (flat_map utf8 s) with (enc s) in *.
  pose proof (ta_end [] t Ht) as Htt. cbn [app enc flat_map length] in Htt. change (flat_map utf8 t) with (enc t) in *.
  destruct (compare_any lower e _ _ _ _ _ _ t s Ht Hs Htt Hts est ess Het Hes) as (l' & r' & E & Hl & Hr & Hl' & Hr').
  destruct (compare_prefix lower e _ _ _ _ _ t s est ess Ht Hs Htt Hts Het Hes) as (p' & q' & E' & Hcase).
  destruct Hcase as [(f1 & f2 & F1 & F2 & _)|[_ Hm]]; [exfalso; exact (Hno f1 f2 F1 F2)|].
  rewrite E' in E. injection E as Ep Eq. rewrite E', Hm.
  pose proof Hs as Hs2. rewrite Hr in Hs2, Hts. rewrite enc_app in Hts. pose proof (text_at_suffix _ _ _ _ _ Hts) as Hts2.
  rewrite <- enc_app, <- Hr in Hts2.
  apply Forall_app in Hs2 as [_ Hs2]. cbn [Nat.add] in Hts2, Eq. rewrite Eq, (more_enc _ _ _ r' Hs2 Hts2). cbn [negb andb].
  eexists. split; reflexivity.
Qed.

(** Nothing is inserted when suggestions are off, when the cursor is not at the end, or when there is none. *)
Theorem reject_never : forall fuel act g b,
  e_enable e = false \/ e_inline e = false \/ e_list_active e = true \/ length (u_items (g_sugs g)) <> 1 \/
  g_iter g = None \/ (b_cur b <> length (b_text b) /\ exists a s, Forall scalar s /\ offers g a s) ->
  ins fuel act g b = Some (false, g, b).
Proof.
  intros fuel act g b H. unfold insert.
  destruct (e_enable e) eqn:E1; [|reflexivity]. destruct (e_inline e) eqn:E2; [|reflexivity]. cbn [negb orb].
  destruct (u_items (g_sugs g)) as [|i [|j l]] eqn:E3; try reflexivity.
  destruct (e_list_active e) eqn:E4; [reflexivity|].
  destruct H as [H|[H|[H|[H|[H|[H (a & s & Hs & Ho)]]]]]]; try discriminate; try (cbn in H; lia).
  - rewrite H. reflexivity.
  - destruct (offers_more g a s Hs Ho) as (src & deco & h & q & H1 & H2 & H3). rewrite H2.
    rewrite E3 in H1. injection H1 as ->. cbn [i_text i_off]. cbv zeta. rewrite H3. cbn [negb orb].
    replace (b_cur b =? length (b_text b)) with false by lia. reflexivity.
Qed.

(** The loop that follows Readline's word movement does not end if it is to go further than the text does. *)
Lemma resync_stuck y : forall fuel x start consume, Forall scalar y -> start <= length (enc x) ->
  (Z.of_nat (length (enc (x ++ y))) - Z.of_nat start < consume)%Z ->
  resync fuel (enc (x ++ y)) start (length (enc x)) consume = None.
Proof.
  induction y as [|c y IH]; intros fuel x start consume Hs Hst Hc.
  - induction fuel as [|fuel IHf]; [reflexivity|]. cbn [resync]. rewrite app_nil_r in Hc.
    replace (Z.of_nat (length (enc x)) - Z.of_nat start <? consume)%Z with true by lia.
    rewrite (next_end _ _ _ (ta_end x [] Hs)). exact IHf.
  - destruct fuel as [|fuel]; [reflexivity|]. cbn [resync].
    replace (Z.of_nat (length (enc x)) - Z.of_nat start <? consume)%Z with true
      by (rewrite enc_app, app_length in Hc; lia).
    destruct (next_char _ _ _ c y Hs (ta_end x (c :: y) Hs)) as [-> _].
    specialize (IH fuel (x ++ [c]) start consume (Forall_inv_tail Hs)). rewrite <- !app_assoc in IH. cbn [app] in IH.
    replace (length (enc x) + length (utf8 c)) with (length (enc (x ++ [c])))
      by (rewrite enc_app, enc_cons, !app_length; cbn; lia).
    apply IH; [rewrite enc_app, app_length; lia|exact Hc].
Qed.

(** With original capitalization, a line that takes more bytes before the last word than the suggestion does there (accents
    typed where the suggestion has none), and a word movement to the end of the line: accepting the next word never
    returns, however long it is given. *)
Theorem accept_next_hangs_refuted : forall fuel g a t1 t2 p1 p2 r w, ready e -> e_original e = true ->
  Forall scalar (a ++ t1 ++ t2) -> Forall scalar (p1 ++ p2 ++ r) -> offers g a (p1 ++ p2 ++ r) ->
  g_endword g = Some w -> last_word w a t1 ->
  plain k (t1 ++ t2) -> plain k (p1 ++ p2 ++ r) -> alike k t1 p1 -> length t2 = length p2 ->
  length (enc p1) < length (enc t1) -> length t2 < fuel ->
  (forall text cur, forward_word text cur = length text) ->
  ins fuel next_word g (typed (a ++ t1 ++ t2)) = None.
Proof.
  intros fuel g a t1 t2 p1 p2 r w Hr Ho Hl Hs Hof Hw Hlw Hpt Hps H1 Hlen Hb Hf Hfw.
  rewrite (insert_core lower forward_word e fuel next_word g a t1 t2 p1 p2 r w Hr Hl Hs Hof Hw Hlw
     (plain_app_l lower e _ _ Hpt) Hps H1 Hlen ltac:(discriminate) Hf).
  rewrite (rest_line forward_word e next_word fuel g a t1 t2 p1 p2 r w _ Hlw). rewrite Ho. cbv zeta.
  cbn [b_set_cursor b_text b_cur typed]. rewrite Hfw.
  assert (Sr : Forall scalar r).
  { apply Forall_app in Hs as [_ Hs]. apply Forall_app in Hs. tauto. }
  rewrite (app_assoc p1 p2 r), (resync_stuck r); auto.
  rewrite !enc_app, !app_length. lia.
Qed.
End Accept.
Print Assumptions shown_plain.
Print Assumptions accept_shown.
Print Assumptions accept_whole.
Print Assumptions accept_original.
Print Assumptions accept_word.
Print Assumptions accept_words.
Print Assumptions accept_next.
Print Assumptions reject_early.
Print Assumptions reject_whole.
Print Assumptions reject_never.
Print Assumptions accept_next_hangs_refuted.

(** ** Examples *)
Definition fresh : mgr := mkMgr None [] (u_clear 0) None false false 0.
Definition sug (text : list N) (off : nat) : item := mkItem text off (bs "history") [] 0.
(** Caseless, accents ignored, original capitalization. *)
Definition e1 : env := mkEnv true true true 1 true false false.
(** The same without original capitalization. *)
Definition e2 : env := mkEnv true true false 1 true false false.
(** Movements to the end of the line, and to the next blank (enough for the examples). *)
Definition fw_end (t : list N) (cur : nat) : nat := length t.
Fixpoint blank_from (t : list N) (n : nat) : nat :=
  match t with [] => n | c :: r => if (c =? 32)%N then n else blank_from r (S n) end.
Definition fw_blank (t : list N) (cur : nat) : nat := blank_from (skipn cur t) cur.

Definition after (e : env) (line : list N) (w : nat) (items : list item) : mgr :=
  match set ascii_lower e line w items fresh with Some g => g | None => fresh end.

Ltac scal := scalars.
Ltac alikes := unfold alike; repeat (apply Forall2_cons; [vm_compute; reflexivity|]); apply Forall2_nil.
Ltac plains := repeat (split; [let H := fresh in intro H; vm_compute in H; discriminate|]); exact Logic.I.

(** "x & git C" with the suggestion "git commit -m ""a b"" file" for what follows the "&": the hypotheses hold, and what
    happens. *)
Definition ex_a : list N := bs "x & ".
Definition ex_t1 : list N := bs "git ".
Definition ex_t2 : list N := bs "C".
Definition ex_p2 : list N := bs "c".
Definition ex_r : list N := bs "ommit -m ""a b"" file".
Definition ex_g (e : env) : mgr := after e (enc (ex_a ++ ex_t1 ++ ex_t2)) 8 [sug (enc (ex_t1 ++ ex_p2 ++ ex_r)) 4].

Example ex_hypotheses : forall e, e = e1 \/ e = e2 ->
  ready e /\ Forall scalar (ex_a ++ ex_t1 ++ ex_t2) /\ Forall scalar (ex_t1 ++ ex_p2 ++ ex_r) /\
  offers (ex_g e) ex_a (ex_t1 ++ ex_p2 ++ ex_r) /\ g_endword (ex_g e) = Some 8 /\ last_word 8 ex_a ex_t1 /\
  plain (kk ascii_lower e) (ex_t1 ++ ex_t2) /\ plain (kk ascii_lower e) (ex_t1 ++ ex_p2 ++ ex_r) /\
  alike (kk ascii_lower e) ex_t1 ex_t1 /\ alike (kk ascii_lower e) ex_t2 ex_p2 /\
  full_word (inside (ex_a ++ ex_t1 ++ ex_t2) 8 ex_t2) ex_r (bs "ommit") (bs " -m ""a b"" file").
Proof.
  intros e He.
  split; [destruct He; subst; (split; [reflexivity|split; reflexivity])|].
  split; [scal|]. split; [scal|].
  split. { destruct He; subst; exists (bs "history"), [], 0%Z, 5; (split; [vm_compute; reflexivity|]);
             (split; [vm_compute; reflexivity|]); vm_compute; lia. }
  split; [destruct He; subst; vm_compute; reflexivity|].
  split; [left; vm_compute; reflexivity|].
  split; [destruct He; subst; plains|]. split; [destruct He; subst; plains|].
  split; [destruct He; subst; alikes|]. split; [destruct He; subst; alikes|].
  exists [], (bs "ommit"). split; [reflexivity|]. split; [reflexivity|]. split; [apply Forall_nil|].
  split; [intros [H|H]; discriminate H|].
  replace (inside (ex_a ++ ex_t1 ++ ex_t2) 8 ex_t2) with false by (vm_compute; reflexivity).
  change (bs "ommit" ++ bs " -m ""a b"" file") with (bs "ommit -m ""a b"" file").
  do 5 (apply (W_char false); [discriminate|right; intros [H|H]; discriminate H|]). apply W_blank. left. reflexivity.
Qed.

Example ex_shown : get_visible ascii_lower e1 (ex_g e1) (typed (bs "x & git C")) =
  Some (Some (bs "x & git Commit -m ""a b"" file")).
Proof. vm_compute. reflexivity. Qed.
Example ex_accept_original : exists g', insert ascii_lower fw_end e1 50 to_end (ex_g e1) (typed (bs "x & git C")) =
  Some (true, g', typed (bs "x & git commit -m ""a b"" file")).
Proof. eexists. vm_compute. reflexivity. Qed.
Example ex_accept_typed : exists g', insert ascii_lower fw_end e2 50 to_end (ex_g e2) (typed (bs "x & git C")) =
  Some (true, g', typed (bs "x & git Commit -m ""a b"" file")).
Proof. eexists. vm_compute. reflexivity. Qed.
(** Word by word: "commit", "-m", "file" and the quoted word. *)
Example ex_words : forall n, In n [1; 2; 3; 4] ->
  match words ascii_lower fw_end e1 50 n (ex_g e1) (typed (bs "x & git C")) with
  | Some (_, b) => b_text b = nth (n - 1) [bs "x & git commit"; bs "x & git commit -m"; bs "x & git commit -m ""a b""";
                                           bs "x & git commit -m ""a b"" file"] []
  | None => False
  end.
Proof. intros n H. cbn in H. destruct H as [<-|[<-|[<-|[<-|[]]]]]; vm_compute; reflexivity. Qed.
Example ex_next : exists g', insert ascii_lower fw_blank e1 50 next_word (ex_g e1) (typed (bs "x & git C")) =
  Some (true, g', typed (bs "x & git commit")).
Proof. eexists. vm_compute. reflexivity. Qed.
Example ex_whole : exists g', insert ascii_lower fw_end e1 50 to_end (after e1 (bs "GIT c") 4 [sug (bs "git Commit") 0])
   (typed (bs "GIT c")) = Some (true, g', typed (bs "git Commit")).
Proof. eexists. vm_compute. reflexivity. Qed.
Example ex_reject : exists g', insert ascii_lower fw_end e1 50 to_end (after e1 (bs "GIT c") 4 [sug (bs "git Commit") 0])
   (typed (bs "GIT x")) = Some (false, g', typed (bs "GIT x")).
Proof. eexists. vm_compute. reflexivity. Qed.
Example ex_reject_early : exists g', insert ascii_lower fw_end e1 50 next_full_word (after e1 (bs "GIT c") 4 [sug (bs "git Commit") 0])
   (typed (bs "GOT c")) = Some (false, g', typed (bs "GOT c")).
Proof. eexists. vm_compute. reflexivity. Qed.

(** ** What does not hold *)

(** With a run of slashes in the line, what is inserted is not what is shown: the line "cd a//b" and the suggestion
    "cd a/bcd" show "cd a//bcd"; accepting it (without original capitalization) gives "cd a//bd". *)
Theorem shown_inserted_refuted :
  let g := after e2 (bs "cd a//b") 3 [sug (bs "cd a/bcd") 0] in
  get_visible ascii_lower e2 g (typed (bs "cd a//b")) = Some (Some (bs "cd a//bcd")) /\
  exists g', insert ascii_lower fw_end e2 50 to_end g (typed (bs "cd a//b")) = Some (true, g', typed (bs "cd a//bd")).
Proof. cbv zeta. split; [vm_compute; reflexivity|]. eexists. vm_compute. reflexivity. Qed.
Print Assumptions shown_inserted_refuted.

(** The text behind the last word's offset is not compared: a suggestion that is not shown any more because the line does
    not fit it replaces what was typed ("git px" becomes "git push"). *)
Theorem typed_kept_refuted :
  let g := after e1 (bs "git p") 4 [sug (bs "git push origin") 0] in
  get_visible ascii_lower e1 g (typed (bs "git px")) = Some None /\
  exists g', insert ascii_lower fw_end e1 50 next_full_word g (typed (bs "git px")) = Some (true, g', typed (bs "git push")).
Proof. cbv zeta. split; [vm_compute; reflexivity|]. eexists. vm_compute. reflexivity. Qed.
Print Assumptions typed_kept_refuted.

(** With original capitalization, the cursor is placed by the suggestion's bytes: if the suggestion has accents before the
    last word where the line has none, accepting a word also takes parts of the next ones: "del resume f" with the
    suggestion "del r\xe9sum\xe9 foo bar" becomes "del resume foo b". *)
Definition resume : list N := bs "del r" ++ [195; 169]%N ++ bs "sum" ++ [195; 169]%N.
Theorem one_word_refuted :
  let g := after e1 (bs "del resume f") 11 [sug (resume ++ bs " foo bar") 0] in
  exists g', insert ascii_lower fw_end e1 50 next_full_word g (typed (bs "del resume f")) =
    Some (true, g', typed (bs "del resume foo b")).
Proof. cbv zeta. eexists. vm_compute. reflexivity. Qed.
Print Assumptions one_word_refuted.

(** The other way around, accepting the next word hangs: the line "del r\xe9sum\xe9 f" (accents typed), the suggestion
    "del resume foo". *)
Example ex_hangs : forall fuel, 1 < fuel ->
  insert ascii_lower fw_end e1 fuel next_word (after e1 (resume ++ bs " f") 13 [sug (bs "del resume foo") 0])
    (mkBuf (resume ++ bs " f") 14) = None.
Proof.
  intros fuel Hf.
  set (t1 := bs "del r" ++ [233]%N ++ bs "sum" ++ [233]%N ++ bs " ").
  change (mkBuf (resume ++ bs " f") 14) with (typed ([] ++ t1 ++ bs "f")).
  refine (accept_next_hangs_refuted ascii_lower fw_end e1 fuel _ [] t1 (bs "f") (bs "del resume ") (bs "f") (bs "oo") 13
    _ eq_refl _ _ _ _ _ _ _ _ eq_refl _ Hf _).
  - split; [reflexivity|split; reflexivity].
  - scal.
  - scal.
  - exists (bs "history"), [], 0%Z, 12. split; [vm_compute; reflexivity|]. split; [vm_compute; reflexivity|]. vm_compute. lia.
  - vm_compute. reflexivity.
  - left. vm_compute. reflexivity.
  - plains.
  - plains.
  - alikes.
  - vm_compute. lia.
  - reflexivity.
Qed.

(** After a word has been accepted the line is not recognised as the one the suggestions are for (set_line appends):
    another suggestion is asked for. *)
Theorem word_keeps_line_refuted :
  let g := after e1 (bs "git p") 4 [sug (bs "git push origin") 0] in
  match insert ascii_lower fw_end e1 50 next_full_word g (typed (bs "git p")) with
  | Some (_, g', b') => b' = typed (bs "git push") /\ u_line (g_sugs g') = bs "git pgit push" /\
                        fst (can_suggest false false false 4 g' b') = true
  | None => False
  end.
Proof. vm_compute. auto. Qed.
Print Assumptions word_keeps_line_refuted.
