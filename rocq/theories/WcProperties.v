(** C52, C61: display characters and their widths. *)
From Verif Require Import Base UtfModel UtfSpec UtfProofs EscSpec EscProofs WidthModel WidthProofs WcModel WcSpec WcProofs.
Open Scope N_scope.

(** ** C61 *)
Definition mem (c : N) (tab : list (N * N)) : bool := existsb (fun iv => (fst iv <=? c) && (c <=? snd iv)) tab.
(** every table that is searched *)
Definition tables := [halfwidth_exceptions; combining; ucs2_fullwidth_emoji; ambiguous; emojis; possible_unqualified_half_width].
Lemma found_mem c tab : sorted tab = true -> tab <> [] -> found c tab = mem c tab.
Proof.
  intros Hs Hne. pose proof (found_ok c tab Hs Hne) as H. apply Bool.eq_iff_eq_true. rewrite H. unfold mem. rewrite existsb_exists, Exists_exists. unfold inside. split; intros (iv & I & P); exists iv; split; try exact I; lia.
Qed.
(** Looking up a character never reads outside the table, ends, and tells whether it is in one of the intervals. *)
Theorem c61_search c tab : In tab tables -> bisearch c tab (Z.of_nat (length tab) - 1) = Some (mem c tab).
Proof.
  intro H. assert (Hs : sorted tab = true /\ tab <> []) by (unfold tables in H; cbn [In] in H; decompose [or] H; try contradiction; subst tab; (split; [vm_compute; reflexivity|discriminate])).
  destruct Hs as [Hs Hne]. destruct (bisearch_ok c tab Hs Hne) as (b & E & Hb). pose proof (found_mem c tab Hs Hne) as F. unfold found in F. rewrite E in F. rewrite E, F. reflexivity.
Qed.
Print Assumptions c61_search.
Example c61_search_ex : bisearch 128512 emojis 80 = Some true /\ bisearch 65 emojis 80 = Some false /\ bisearch 9000 emojis 80 = Some false.
Proof. vm_compute. auto. Qed.
(** For any sorted table. *)
Theorem c61_search_any c tab : sorted tab = true -> tab <> [] -> bisearch c tab (Z.of_nat (length tab) - 1) = Some (mem c tab).
Proof. intros Hs Hne. destruct (bisearch_ok c tab Hs Hne) as (b & E & Hb). pose proof (found_mem c tab Hs Hne) as F. unfold found in F. rewrite E in F. rewrite E, F. reflexivity. Qed.
Print Assumptions c61_search_any.

Definition wide_ranges : list (N * N) := [(4352, 4447); (9001, 9002); (11904, 42191); (44032, 55203); (63744, 64255); (65040, 65049); (65072, 65135); (65280, 65376); (65504, 65510); (131072, 196605); (196608, 262141)].
Definition width (ce : bool) (cm : Z) (c : N) : Z :=
  if c =? 0 then 0%Z
  else if mem c [(1, 31); (127, 159)] then (-1)%Z
  else if c <? 160 then 1%Z
  else if ce && mem c possible_unqualified_half_width then 1%Z
  else if ce && mem c emojis then 2%Z
  else if mem c combining then cm
  else if mem c wide_ranges && negb (mem c halfwidth_exceptions) then 2%Z
  else 1%Z.
Lemma half_range c : mem c halfwidth_exceptions = true -> 12351 <= c <= 19967.
Proof. unfold mem, halfwidth_exceptions. cbn [existsb fst snd]. lia. Qed.
Theorem c61_width ce cm c : mk_wcwidth ce cm c = width ce cm c.
Proof.
  unfold mk_wcwidth, width, is_possible_unqualified_half_width, is_emoji, is_cjk_halfwidth.
  rewrite !found_mem by (reflexivity || discriminate). pose proof (half_range c) as Hh. destruct (c =? 0) eqn:E0; [reflexivity|].
  assert (Ec : mem c [(1, 31); (127, 159)] = (c <? 32) || negb (c <=? 126) && (c <? 160)) by (unfold mem; cbn [existsb fst snd]; lia). rewrite Ec.
  destruct (c <? 32) eqn:E1; [reflexivity|]. cbn [orb]. destruct (c <=? 126) eqn:E2; cbn [negb andb]; [replace (c <? 160) with true by lia; reflexivity|]. destruct (c <? 160) eqn:E3; [reflexivity|].
  destruct (ce && mem c possible_unqualified_half_width); [reflexivity|]. destruct (ce && mem c emojis); [reflexivity|]. destruct (mem c combining); [reflexivity|].
  assert (Ew : mem c wide_ranges = within 4352 4447 c || (within 9001 9002 c || (within 11904 42191 c || (within 44032 55203 c ||
     (within 63744 64255 c || within 65040 65049 c || within 65072 65135 c || within 65280 65376 c || within 65504 65510 c || within 131072 196605 c || within 196608 262141 c))))).
  { unfold mem, wide_ranges, within. cbn [existsb fst snd]. lia. }
  rewrite Ew. destruct (mem c halfwidth_exceptions) eqn:Eh.
  - specialize (Hh eq_refl). replace (c <? 4352) with false by lia. replace (c <=? 4447) with false by lia. replace ((c =? 9001) || (c =? 9002)) with false by lia. unfold within at 1. replace ((11904 <=? c) && (c <=? 42191)) with true by lia. rewrite andb_false_r. reflexivity.
  - clear Hh Ew. rewrite andb_true_r. cbn [negb Z.b2z]. change (1 + 1)%Z with 2%Z. destruct (c <? 4352) eqn:E4; [unfold within; replace (4352 <=? c) with false by lia; replace (9001 <=? c) with false by lia; replace (11904 <=? c) with false by lia; replace (44032 <=? c) with false by lia; replace (63744 <=? c) with false by lia;
       replace (65040 <=? c) with false by lia; replace (65072 <=? c) with false by lia; replace (65280 <=? c) with false by lia; replace (65504 <=? c) with false by lia; replace (131072 <=? c) with false by lia; replace (196608 <=? c) with false by lia; reflexivity|].
    replace (within 4352 4447 c) with (c <=? 4447) by (unfold within; lia). destruct (c <=? 4447); [reflexivity|]. cbn [orb].
    replace (within 9001 9002 c) with ((c =? 9001) || (c =? 9002)) by (unfold within; lia). destruct ((c =? 9001) || (c =? 9002)); [reflexivity|]. cbn [orb].
    destruct (within 11904 42191 c); [reflexivity|]. cbn [orb]. destruct (within 44032 55203 c); reflexivity.
Qed.
Print Assumptions c61_width.
Example c61_width_ex : width true 1 128512 = 2%Z /\ width false 1 20013 = 2%Z /\ width true 0 769 = 0%Z /\ width true 1 233 = 1%Z /\ width true 1 12351 = 1%Z.
Proof. vm_compute. auto 10. Qed.
(** every character of a text takes one or two cells, a control character none or what the caller counts for it *)
Theorem c61_range ce c : c <> 0 -> In (mk_wcwidth ce 1 c) [(-1)%Z; 1%Z; 2%Z].
Proof.
  intro H. pose proof (wcwidth_range ce 1 c ltac:(lia)). pose proof (wcwidth_pos ce c H). assert (E : mk_wcwidth ce 1 c = (-1)%Z \/ mk_wcwidth ce 1 c = 1%Z \/ mk_wcwidth ce 1 c = 2%Z) by lia. cbn [In]. intuition congruence.
Qed.
Print Assumptions c61_range.
Theorem c61_control ce cm c : (0 <= cm)%Z -> ((mk_wcwidth ce cm c < 0)%Z <-> 0 < c < 32 \/ 127 <= c < 160).
Proof. apply wcwidth_neg. Qed.
Print Assumptions c61_control.

(** ** C52.  [ce] is g_color_emoji; the width function may be any (the legacy console and the East Asian variants are
    chosen at run time) *)
Section C52.
Variable ce : bool.
Variable wcw : N -> Z.
Definition chars (t : list N) := glyphs ce wcw is_variant_selector is_possible_unqualified_half_width is_emoji t.
Definition chars_of (cps : list N) (l : list glyph) := clusters ce wcw is_variant_selector is_possible_unqualified_half_width is_emoji cps l.
Definition next_char (s : wst) := wnext ce wcw is_variant_selector is_possible_unqualified_half_width is_emoji s.
Definition text_of (l : list glyph) : list N := concat (map (fun g : glyph => fst (fst g)) l).
Definition in_bytes (l : list glyph) : list glyph := map (fun g => (bytes_of (fst (fst g)), snd (fst g), snd g)) l.
Definition cells (l : list glyph) : Z := fold_right Z.add 0%Z (map onectrl l).
Definition width_of (t : list N) := wcswidth ce wcw is_variant_selector is_possible_unqualified_half_width is_emoji t.

Lemma text_bytes m : text_of (in_bytes m) = bytes_of (text_of m).
Proof. induction m as [|[[u w] e] m IH]; [reflexivity|]. unfold text_of, in_bytes, bytes_of in *. cbn [map concat fst snd]. rewrite flat_map_app, IH. reflexivity. Qed.
Lemma skipn_in_bytes k m : skipn k (in_bytes m) = in_bytes (skipn k m).
Proof. unfold in_bytes. apply skipn_map. Qed.
Lemma emo0 : is_emoji 0 = false. Proof. vm_compute. reflexivity. Qed.
Lemma unq0 : is_possible_unqualified_half_width 0 = false. Proof. vm_compute. reflexivity. Qed.

(** Any bytes: iteration ends, and the characters are adjacent, not empty, and cover the text up to the first place where
    no character can be read. *)
Theorem c52_partition t : exists l e, chars t = Some (l, e) /\ t = text_of l ++ e /\ Forall (fun g : glyph => fst (fst g) <> []) l /\ fst (d8 e) = 0.
Proof.
  destruct (wspans_total ce wcw is_variant_selector is_possible_unqualified_half_width is_emoji emo0 unq0 (S (length t)) (wreset t) (good_reset t)) as (l & e & E & C & F & D); [unfold wreset; destruct (d8 t); cbn; lia|].
  exists l, e. split; [exact E|]. replace (w_end (wreset t)) with t in C by (unfold wreset; destruct (d8 t); reflexivity). auto.
Qed.
(** Unicode text: the characters are the clusters of WcSpec, which are determined. *)
Theorem c52_clusters cps : Forall scalar cps -> exists l, chars (bytes_of cps) = Some (in_bytes l, []) /\ chars_of cps l /\ (forall l', chars_of cps l' -> l' = l).
Proof.
  intro F. destruct (glyphs_spec ce wcw is_variant_selector is_possible_unqualified_half_width is_emoji emo0 unq0 eq_refl cps F) as (l & E & C). exists l. split; [exact E|]. split; [exact C|]. intros l' C'. exact (clusters_det _ _ _ _ _ _ _ C' _ C).
Qed.
(** Starting again at any character, iteration yields the rest of the characters. *)
Theorem c52_reset t l e k : chars t = Some (l, e) -> chars (text_of (skipn k l) ++ e) = Some (skipn k l, e).
Proof. intro E. exact (glyphs_suffix ce wcw is_variant_selector is_possible_unqualified_half_width is_emoji emo0 unq0 l t e E k). Qed.
(** Text cut off after a character: its characters are the same. *)
Theorem c52_cut cps l k : Forall scalar cps -> chars_of cps l -> chars (bytes_of (text_of (firstn k l))) = Some (in_bytes (firstn k l), []).
Proof.
  intros F C. pose proof (clusters_prefix _ _ _ _ _ _ _ C k) as Ck. assert (Fk : Forall scalar (text_of (firstn k l))).
  { rewrite <- (clusters_concat _ _ _ _ _ _ _ C) in F. rewrite <- (firstn_skipn k l) in F. rewrite map_app, concat_app in F. apply Forall_app in F as [F _]. exact F. }
  destruct (c52_clusters _ Fk) as (l' & E & _ & U). rewrite <- (U _ Ck) in E. exact E.
Qed.
(** The width of a text is the sum of the widths of the two parts, cut after any character. *)
Theorem c52_sum cps l k : Forall scalar cps -> chars_of cps l ->
  width_of (bytes_of cps) = Some (cells l) /\ width_of (bytes_of (text_of (firstn k l))) = Some (cells (firstn k l)) /\ width_of (bytes_of (text_of (skipn k l))) = Some (cells (skipn k l)) /\
  (cells l = cells (firstn k l) + cells (skipn k l))%Z.
Proof.
  intros F C. assert (Hc : forall m, cells (in_bytes m) = cells m) by (intro m; unfold cells, in_bytes; rewrite map_map; f_equal; apply map_ext; intros [[u w] e]; reflexivity).
  destruct (c52_clusters _ F) as (l0 & E & _ & U). rewrite <- (U _ C) in E. unfold width_of, wcswidth. fold (chars (bytes_of cps)). fold (chars (bytes_of (text_of (firstn k l)))). fold (chars (bytes_of (text_of (skipn k l)))).
  rewrite E, (c52_cut cps l k F C). pose proof (c52_reset _ _ _ k E) as R. rewrite app_nil_r in R.
  assert (Es : text_of (skipn k (in_bytes l)) = bytes_of (text_of (skipn k l))).
  { rewrite skipn_in_bytes. apply text_bytes. }
  rewrite Es in R. rewrite R. split; [f_equal; apply Hc|]. split; [f_equal; apply Hc|]. split; [f_equal; rewrite skipn_in_bytes; apply Hc|].
  unfold cells. rewrite <- (firstn_skipn k l) at 1. rewrite map_app, fold_right_app. generalize (fold_right Z.add 0%Z (map onectrl (skipn k l))). intro z. induction (map onectrl (firstn k l)) as [|x m IH]; cbn [fold_right]; lia.
Qed.
(** unnext: the same character comes again *)
Inductive reached (t : list N) : wst -> Prop :=
| re_start : reached t (wreset t)
| re_next s c s' : reached t s -> next_char s = Some (c, s') -> reached t s'
| re_unnext s : reached t s -> reached t (wunnext s).
Theorem c52_unnext t s c s' : reached t s -> next_char s = Some (c, s') -> next_char (wunnext s') = Some (c, s').
Proof.
  intros R E. assert (G : good s).
  { clear E. induction R as [|s c0 s0 R IH E|s R IH]; [apply good_reset| |apply good_reset]. destruct (wnext_total ce wcw is_variant_selector is_possible_unqualified_half_width is_emoji emo0 unq0 s IH) as (s1 & E1 & G & _). unfold next_char in E. rewrite E1 in E. injection E as _ <-. exact G. }
  destruct (wnext_total ce wcw is_variant_selector is_possible_unqualified_half_width is_emoji emo0 unq0 s G) as (s1 & E1 & _ & P & _). unfold next_char in *. rewrite E1 in E. injection E as <- <-.
  unfold wunnext. rewrite P. rewrite <- wnext_reset by exact G. exact E1.
Qed.
(** more(): on Unicode text, exactly when there is another character *)
Theorem c52_more cps s : Forall scalar cps -> reached (bytes_of cps) s -> (wmore s = true <-> w_next s <> 0).
Proof.
  intros F R. assert (A : exists r, at_ s r /\ ((exists r0, w_ptr s = bytes_of r0 /\ Forall scalar r0))).
  { induction R as [|s c0 s0 R IH E|s R IH].
    - exists cps. split; [split; [apply good_reset|split; [unfold wreset; destruct (d8 (bytes_of cps)); reflexivity|exact F]]|]. exists cps. split; [unfold wreset; destruct (d8 (bytes_of cps)); reflexivity|exact F].
    - destruct IH as (r & A & _). destruct r as [|c r].
      + pose proof (at_nil s A) as Hn. unfold next_char, wnext in E. cbv zeta in E. rewrite Hn in E. cbn [N.eqb] in E. injection E as _ <-. exists []. destruct A as (G & Ee & _). split; [split; [unfold good in *; cbn [w_end w_next w_rest]; rewrite G, Hn; reflexivity|split; [exact Ee|constructor]]|]. exists []. split; [exact Ee|constructor].
      + destruct (wnext_spec ce wcw is_variant_selector is_possible_unqualified_half_width is_emoji emo0 unq0 eq_refl s c r A) as (s' & u & r' & w & e & E1 & Ec & C & A' & _). unfold next_char in E. rewrite E1 in E. injection E as _ <-.
        exists r'. split; [exact A'|]. destruct (wnext_total ce wcw is_variant_selector is_possible_unqualified_half_width is_emoji emo0 unq0 s (proj1 A)) as (s1 & E2 & _ & P & _). rewrite E1 in E2. injection E2 as _ <-. exists (c :: r). rewrite P. destruct A as (_ & Ee & Fc). split; [exact Ee|exact Fc].
    - destruct IH as (_ & _ & r0 & P & F0). exists r0. unfold wunnext. rewrite P. split; [split; [apply good_reset|split; [unfold wreset; destruct (d8 (bytes_of r0)); reflexivity|exact F0]]|]. exists r0. split; [unfold wreset; destruct (d8 (bytes_of r0)); reflexivity|exact F0]. }
  destruct A as (r & A & _). destruct r as [|c r].
  - rewrite (at_nil s A). destruct A as (G & E & _). unfold good in G. rewrite E in G. assert (Er : w_rest s = []) by (change (d8 (bs [])) with (0, @nil N) in G; congruence). unfold wmore. rewrite E, Er. cbn. split; [discriminate|congruence].
  - destruct (at_cons s c r A) as (-> & Hc & Hr & _). pose proof (at_len wcw is_emoji is_emoji is_emoji s c r A) as Hl. unfold wmore. rewrite Hr. split; [intros _; exact Hc|intros _]. replace (length (bs r) <? length (w_end s))%nat with true by lia. reflexivity.
Qed.
End C52.
Print Assumptions c52_partition.
Print Assumptions c52_clusters.
Print Assumptions c52_reset.
Print Assumptions c52_cut.
Print Assumptions c52_sum.
Print Assumptions c52_unnext.
Print Assumptions c52_more.

(** man, joiner, woman with a skin tone, "e", acute accent, a flag, TAB, keycap 1 *)
Definition ex_cps : list N := [128104; 8205; 128105; 127999; 101; 769; 127482; 127480; 9; 35; 65039].
Example c52_ex : Forall scalar ex_cps /\ chars true (mk_wcwidth true 1) (bytes_of ex_cps) =
  Some (in_bytes [([128104; 8205; 128105; 127999], 2%Z, true); ([101], 1%Z, false); ([769], 1%Z, false); ([127482; 127480], 2%Z, true); ([9], (-1)%Z, false); ([35; 65039], 2%Z, true)], []).
Proof. split; [repeat constructor; unfold scalar; lia|]. vm_compute. reflexivity. Qed.
Example c52_cut_ex : width_of true (mk_wcwidth true 1) (bytes_of ex_cps) = Some 9%Z.
Proof. vm_compute. reflexivity. Qed.

(** Cut between any two code points *)
Definition c52_sum_any : Prop := forall ce a b x y, Forall scalar (a ++ b) ->
  width_of ce (mk_wcwidth ce 1) (bytes_of a) = Some x -> width_of ce (mk_wcwidth ce 1) (bytes_of b) = Some y -> width_of ce (mk_wcwidth ce 1) (bytes_of (a ++ b)) = Some (x + y)%Z.
(** man + joiner + woman takes two cells, not five *)
Theorem c52_sum_any_refuted : ~ c52_sum_any.
Proof.
  intro H. assert (F : Forall scalar ([128104] ++ [8205; 128105])) by (repeat constructor; unfold scalar; lia).
  destruct (width_of true (mk_wcwidth true 1) (bytes_of [128104])) as [x|] eqn:Ex; [|vm_compute in Ex; discriminate]. destruct (width_of true (mk_wcwidth true 1) (bytes_of [8205; 128105])) as [y|] eqn:Ey; [|vm_compute in Ey; discriminate].
  specialize (H true _ _ x y F Ex Ey). vm_compute in Ex, Ey. injection Ex as <-. injection Ey as <-. vm_compute in H. discriminate.
Qed.
Print Assumptions c52_sum_any_refuted.
(** more() on any bytes *)
Definition c52_more_any : Prop := forall ce wcw t s, reached ce wcw t s -> wmore s = true -> w_next s <> 0.
(** a character cut off at the end *)
Theorem c52_more_any_refuted : ~ c52_more_any.
Proof. intro H. specialize (H true (mk_wcwidth true 1) [195] _ (re_start _ _ _) eq_refl). apply H. vm_compute. reflexivity. Qed.
Print Assumptions c52_more_any_refuted.
(** Combining marks join the character before them *)
Definition c52_combining : Prop := forall ce cm, mem cm combining = true -> exists l, chars ce (mk_wcwidth ce 1) (bytes_of [101; cm]) = Some (l, []) /\ length l = 1%nat.
(** within the iterator combining marks count as one cell, so they are characters of their own *)
Theorem c52_combining_refuted : ~ c52_combining.
Proof.
  intro H. destruct (H true 769 eq_refl) as (l & E & L). vm_compute in E. injection E as <-. discriminate.
Qed.
Print Assumptions c52_combining_refuted.
