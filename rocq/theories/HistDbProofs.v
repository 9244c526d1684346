(** One session: find, remove by text, remove by id, add, load. *)
From Verif Require Import Base HistFileModel HistSpec HistFileProofs HistLines HistFindProofs HistDbModel HistDbSpec.

(** ** Tags *)

Lemma brk_not_eol c : brk c = false -> Ascii.eqb c NUL = false /\ (Ascii.eqb c CR || Ascii.eqb c LF) = false.
Proof.
  unfold brk. intro H. apply orb_false_iff in H as [H H3]. apply orb_false_iff in H as [H1 H2].
  rewrite H1, H2, H3. auto.
Qed.

Lemma strpbrk_run t rest : no_brk t = true -> strpbrk_eol (t ++ LF :: rest) = Some (length t).
Proof.
  induction t as [|c t IH]; intro H; cbn [app strpbrk_eol length]; [reflexivity|].
  cbn [no_brk forallb] in H. apply andb_true_iff in H as [Hc H]. apply negb_true_iff in Hc.
  apply brk_not_eol in Hc as [H1 H2]. rewrite H1, H2, (IH H). reflexivity.
Qed.

Lemma extract_ctag_ok size tag rest : good_tag tag -> 51 <= size ->
  extract_ctag size (tag ++ LF :: rest) = Some tag.
Proof.
  intros (Hp & Hn & Hl) Hs. unfold extract_ctag.
  assert (Hlen : length (tag ++ LF :: rest) = length tag + S (length rest)) by (rewrite app_length; reflexivity).
  rewrite Hlen. destruct (Nat.eqb_spec (Nat.min size (length tag + S (length rest))) 0) as [H|_]; [lia|].
  assert (Hb : forall n, length tag + 1 <= n -> exists r, firstn n (tag ++ LF :: rest) = tag ++ LF :: r).
  { intros n Hn'. replace n with (length tag + S (n - length tag - 1)) by lia.
    rewrite firstn_app_2. cbn [firstn]. eauto. }
  match goal with |- (if prefixb _ (firstn ?n _) then _ else _) = _ => destruct (Hb n) as [r Hr] end.
  { destruct (Nat.leb_spec size (Nat.min size (length tag + S (length rest)))); lia. }
  rewrite Hr. assert (Hpp : prefixb ctag_prefix (tag ++ LF :: r) = true).
  { apply prefixb_iff in Hp as [u ->]. rewrite <- app_assoc. apply prefixb_app. }
  rewrite Hpp, strpbrk_run by auto. rewrite firstn_app_exact by auto.
  rewrite firstn_all2 by lia. reflexivity.
Qed.

Lemma good_tag_ne t : good_tag t -> t <> [].
Proof. intros (H & _) ->. discriminate. Qed.

Lemma good_tag_bar t : good_tag t -> bar_line t = true /\ time_line t = false.
Proof. intros (H & _). split; [apply ctag_is_bar; auto|apply ctag_not_time; auto]. Qed.

Lemma lines_tagged tag rest : good_tag tag ->
  lines_of (tag ++ LF :: rest) = (0, tag) :: raw_lines (S (length tag)) [] rest.
Proof.
  intros Hg. unfold lines_of. rewrite raw_lines_run.
  - cbn [length app raw_lines]. change (brk LF) with true. cbn [Nat.sub Nat.add]. reflexivity.
  - apply Hg.
  - reflexivity.
  - apply good_tag_ne; auto.
Qed.

(** ** Numbers *)

Lemma undec_ge l acc : (acc <= undec acc l)%N.
Proof.
  revert acc; induction l as [|c l IH]; intro acc; cbn [undec]; [lia|].
  specialize (IH (acc * 10 + (N_of_ascii c - 48))%N). lia.
Qed.

Lemma parse_off_undec l acc : forallb is_digit l = true -> (undec acc l < 18446744073709551616)%N ->
  parse_off acc l = undec acc l.
Proof.
  revert acc; induction l as [|c l IH]; intros acc Hd Hu; cbn [parse_off undec]; auto.
  cbn [forallb] in Hd. apply andb_true_iff in Hd as [Hc Hd]. rewrite Hc.
  cbn [undec] in Hu. pose proof (undec_ge l (acc * 10 + (N_of_ascii c - 48))%N).
  rewrite N.mod_small by lia. apply IH; auto.
Qed.

Lemma parse_off_dec n : (n < 18446744073709551616)%N -> parse_off 0 (dec n) = n.
Proof.
  intro H. rewrite parse_off_undec; rewrite ?undec_dec; auto. apply dec_digits.
Qed.

Lemma removal_of_dec o : (N.of_nat o < max_off)%N -> 0 < o -> removal_of_line (dec (N.of_nat o)) = [o].
Proof.
  intros H H0. unfold removal_of_line. unfold max_off in H. rewrite parse_off_dec by lia.
  unfold c_max_offset. destruct (N.leb_spec 536870911 (N.of_nat o)); [lia|].
  destruct (N.ltb_spec 0 (N.of_nat o)); [|lia]. rewrite Nat2N.id. reflexivity.
Qed.

Lemma removal_of_dec0 : removal_of_line (dec (N.of_nat 0)) = [].
Proof. reflexivity. Qed.

Lemma digit_not_brk c : is_digit c = true -> brk c = false /\ Ascii.eqb c BAR = false.
Proof.
  intro H. unfold is_digit in H. unfold brk.
  destruct (Ascii.eqb_spec c NUL) as [->|_]; [discriminate|].
  destruct (Ascii.eqb_spec c LF) as [->|_]; [discriminate|].
  destruct (Ascii.eqb_spec c CR) as [->|_]; [discriminate|].
  destruct (Ascii.eqb_spec c BAR) as [->|_]; [discriminate|]. auto.
Qed.

Lemma dec_nobrk n : no_brk (dec n) = true.
Proof.
  pose proof (dec_digits n) as H. induction (dec n) as [|c l IH]; auto.
  cbn [forallb] in H. apply andb_true_iff in H as [H1 H2]. apply digit_not_brk in H1 as [H1 _].
  cbn [no_brk forallb]. rewrite H1. apply IH; auto.
Qed.

Lemma dec_nobar n : bar_line (dec n) = false.
Proof.
  pose proof (dec_digits n) as H. destruct (dec n) as [|c l]; auto.
  cbn in *. apply andb_true_iff in H as [H1 H2]. apply digit_not_brk in H1 as [_ H1]. exact H1.
Qed.

Lemma dec_len_off o : (N.of_nat o < max_off)%N -> length (dec (N.of_nat o)) <= 9.
Proof. intro H. apply dec_len; [|lia]. unfold max_off in H. change (10 ^ N.of_nat 9)%N with 1000000000%N. lia. Qed.

Lemma nums_terminated os : terminated (nums os).
Proof.
  induction os as [|o os IH]; [left; reflexivity|]. cbn [nums flat_map].
  apply terminated_app; auto. apply terminated_snoc. reflexivity.
Qed.

Lemma raw_nums k os : map snd (raw_lines k [] (nums os)) = map (fun o => dec (N.of_nat o)) os.
Proof.
  revert k; induction os as [|o os IH]; intro k; cbn [nums flat_map map]; auto.
  rewrite raw_lines_app by (apply terminated_snoc; reflexivity).
  rewrite raw_lines_line by (auto using dec_nonnil, dec_nobrk).
  cbn [map snd app]. f_equal. apply IH.
Qed.

Lemma nums_app a b : nums (a ++ b) = nums a ++ nums b.
Proof. apply flat_map_app. Qed.

Lemma defer_nums os r : fold_left wl_defer os r = r ++ nums os.
Proof.
  revert r; induction os as [|o os IH]; intro r; cbn [fold_left nums flat_map]; [rewrite app_nil_r; auto|].
  rewrite IH. unfold wl_defer. rewrite <- !app_assoc. reflexivity.
Qed.

Lemma defer_rem_file tag os more : fold_left wl_defer more (rem_file tag os) = rem_file tag (os ++ more).
Proof.
  rewrite defer_nums. destruct tag as [t|]; cbn [rem_file]; rewrite nums_app; auto.
  rewrite <- app_assoc. reflexivity.
Qed.

(** ** for_each_removal *)

Lemma visible_all rm ts ls : (forall l, In l ls -> bar_line (snd l) = false) -> (forall o, rm o = false) ->
  map v_text (visible_from rm ts ls) = map snd ls.
Proof.
  revert ts; induction ls as [|[o t] ls IH]; intros ts Hb Hr; auto.
  cbn [visible_from map snd].
  assert (Ht : bar_line t = false) by (apply (Hb (o, t)); left; auto).
  rewrite (bar_false_time t Ht), Ht, Hr. cbn [map v_text]. f_equal.
  apply IH; auto. intros l Hl. apply Hb. right. auto.
Qed.

Definition offs_of (os : list nat) : list nat := filter (fun o => 0 <? o) os.

Lemma flat_removal (es : list entry) os : map e_text es = map (fun o => dec (N.of_nat o)) os ->
  Forall (fun o => (N.of_nat o < max_off)%N) os ->
  flat_map (fun e => removal_of_line (e_text e)) es = offs_of os.
Proof.
  revert os; induction es as [|e es IH]; intros [|o os] H Hf; try discriminate; auto.
  cbn [map] in H. injection H as H1 H2. pose proof (Forall_inv Hf). apply Forall_inv_tail in Hf.
  cbn [flat_map offs_of filter]. rewrite H1, (IH os H2 Hf).
  destruct o as [|o]; [reflexivity|]. rewrite removal_of_dec by (auto; lia). reflexivity.
Qed.

Lemma map_to_v_text es : map v_text (map to_v es) = map e_text es.
Proof. rewrite map_map. reflexivity. Qed.

Lemma raw_nums_in k os l : In l (raw_lines k [] (nums os)) -> exists o, In o os /\ snd l = dec (N.of_nat o).
Proof.
  intro H. apply (in_map snd) in H. rewrite raw_nums in H. apply in_map_iff in H as (o & E & Ho). eauto.
Qed.

Lemma fits_nums cap k os : 9 < cap -> Forall (fun o => (N.of_nat o < max_off)%N) os ->
  lines_fit cap (raw_lines k [] (nums os)).
Proof.
  intros Hc H. apply Forall_forall. intros l Hl. apply raw_nums_in in Hl as (o & Ho & ->).
  rewrite Forall_forall in H. pose proof (dec_len_off o (H o Ho)). lia.
Qed.

Lemma terminated_tagged tag rest : terminated rest -> terminated (tag ++ LF :: rest).
Proof.
  intro H. change (tag ++ LF :: rest) with (tag ++ [LF] ++ rest). rewrite app_assoc.
  apply terminated_app; auto. apply terminated_snoc. reflexivity.
Qed.

Lemma for_each_removal_tagged T m tag rest tag' os : 51 <= length T ->
  m = tag ++ LF :: rest -> good_tag tag -> good_tag tag' ->
  Forall (fun o => (N.of_nat o < max_off)%N) os ->
  for_each_removal T m (Some (rem_file (Some tag') os)) =
  if eqb_bytes tag tag' then Some (offs_of os) else None.
Proof.
  intros HT -> Hg Hg' Hos. cbn [for_each_removal rem_file].
  rewrite !extract_ctag_ok by auto. cbn [tag_or_empty].
  destruct (eqb_bytes tag tag'); [|reflexivity].
  destruct (read_bank_ok T [] (tag' ++ LF :: nums os)) as (es & d & E & Hes & _).
  - apply terminated_tagged, nums_terminated.
  - rewrite lines_tagged by auto. constructor.
    + cbn. destruct Hg' as (_ & _ & Hl). lia.
    + apply fits_nums; auto. lia.
  - lia.
  - rewrite E. f_equal. apply flat_removal; auto.
    rewrite <- map_to_v_text, Hes. unfold visible. rewrite lines_tagged by auto. cbn [visible_from].
    destruct (good_tag_bar _ Hg') as [-> ->]. rewrite visible_all.
    + apply raw_nums.
    + intros l Hl. apply raw_nums_in in Hl as (o & _ & ->). apply dec_nobar.
    + intro o. rewrite removed_in_eq. cbn. apply andb_false_r.
Qed.

Lemma extract_nums size os : 2 <= size -> extract_ctag size (nums os) = None.
Proof.
  intro Hs. unfold extract_ctag. cbv zeta. destruct os as [|o os].
  - cbn. rewrite Nat.min_0_r. reflexivity.
  - cbn [nums flat_map]. pose proof (dec_nonnil (N.of_nat o)). pose proof (dec_nobar (N.of_nat o)) as Hb.
    destruct (dec (N.of_nat o)) as [|c l]; [congruence|]. cbn [app length].
    match goal with |- context [Nat.eqb ?n 0] => destruct (Nat.eqb_spec n 0); [lia|] end.
    match goal with |- (if prefixb _ (firstn ?n _) then _ else _) = _ => assert (Hn : n <> 0) end.
    { match goal with |- (if ?c then _ else _) <> 0 => destruct c end; lia. }
    match goal with |- (if prefixb _ (firstn ?n _) then _ else _) = _ => destruct n as [|n']; [congruence|] end.
    cbn [firstn]. match goal with |- (if ?p then _ else _) = _ => destruct p eqn:E end; [|reflexivity].
    apply ctag_is_bar in E. cbn [bar_line] in E, Hb. congruence.
Qed.

Lemma for_each_removal_untagged T m tag rest os : 51 <= length T ->
  m = tag ++ LF :: rest -> good_tag tag ->
  for_each_removal T m (Some (rem_file None os)) = None.
Proof.
  intros HT -> Hg. cbn [for_each_removal rem_file].
  rewrite extract_ctag_ok by auto. rewrite extract_nums by lia. cbn [tag_or_empty].
  pose proof (good_tag_ne _ Hg). destruct tag; [congruence|]. reflexivity.
Qed.

(** ** The removals the iterator sees are the ones of the specification *)

Lemma visible_from_ext2 rm rm' ts ls :
  (forall o t, In (o, t) ls -> bar_line t = false -> rm o = rm' o) ->
  visible_from rm ts ls = visible_from rm' ts ls.
Proof.
  revert ts; induction ls as [|[o t] ls IH]; intros ts H; cbn [visible_from]; auto.
  assert (H' : forall o t, In (o, t) ls -> bar_line t = false -> rm o = rm' o)
    by (intros o' t' Hin; eapply H; right; eauto).
  destruct (time_line t); [auto|]. destruct (bar_line t) eqn:Eb; [auto|].
  rewrite (H o t) by (auto; left; auto). destruct (rm' o); rewrite ?IH; auto.
Qed.

Lemma existsb_nums k os o :
  existsb (fun l => eqb_bytes (snd l) (dec (N.of_nat o))) (raw_lines k [] (nums os)) = mem_nat o os.
Proof.
  apply eq_true_iff_eq. rewrite existsb_exists, mem_nat_in. split.
  - intros (l & Hl & E). apply raw_nums_in in Hl as (o' & Ho & El). apply eqb_bytes_eq in E.
    rewrite El in E. apply dec_inj in E. apply Nat2N.inj in E. subst; auto.
  - intro Ho. assert (Hin : In (dec (N.of_nat o)) (map snd (raw_lines k [] (nums os)))).
    { rewrite raw_nums. apply in_map_iff. eauto. }
    apply in_map_iff in Hin as (l & El & Hl). exists l. rewrite El, eqb_bytes_refl. auto.
Qed.

Lemma mem_offs o os : 0 < o -> mem_nat o (offs_of os) = mem_nat o os.
Proof.
  intro H. apply eq_true_iff_eq. rewrite !mem_nat_in. unfold offs_of. rewrite filter_In.
  destruct (Nat.ltb_spec 0 o); [|lia]. tauto.
Qed.

Lemma spec_removed_tagged tag rest tag' os o : good_tag tag -> good_tag tag' ->
  spec_removed (tag ++ LF :: rest) (Some (rem_file (Some tag') os)) o = eqb_bytes tag tag' && mem_nat o os.
Proof.
  intros Hg Hg'. cbn [spec_removed rem_file]. rewrite !lines_tagged by auto. rewrite existsb_nums. reflexivity.
Qed.

Lemma spec_removed_untagged tag rest os o : good_tag tag ->
  spec_removed (tag ++ LF :: rest) (Some (rem_file None os)) o = false.
Proof.
  intros Hg. cbn [spec_removed rem_file]. rewrite lines_tagged by auto.
  destruct (lines_of (nums os)) as [|[k t] ls] eqn:E; auto.
  assert (Hin : In (k, t) (raw_lines 0 [] (nums os))) by (unfold lines_of in E; rewrite E; left; auto).
  apply raw_nums_in in Hin as (o' & _ & Et). cbn [snd] in Et.
  destruct (eqb_bytes tag t) eqn:Eq; auto. apply eqb_bytes_eq in Eq. subst t.
  destruct (good_tag_bar _ Hg) as [Hb _]. rewrite Eq in Hb. rewrite dec_nobar in Hb. discriminate.
Qed.

Lemma not_too_big m o t : (N.of_nat (length m) <= max_off)%N -> In (o, t) (lines_of m) -> too_big o = false.
Proof.
  intros Hm H. apply lines_of_bounds in H. unfold too_big, c_max_offset. unfold max_off in Hm.
  destruct (N.leb_spec 536870911 (N.of_nat o)); auto. lia.
Qed.

Lemma pos_off cap m o t : wf_master cap m -> In (o, t) (lines_of m) -> bar_line t = false -> 0 < o.
Proof.
  intros (_ & tag & rest & -> & Hg) Hin Hb. destruct o; [|lia]. exfalso.
  assert (H0 : In (0, tag) (lines_of (tag ++ LF :: rest))) by (rewrite lines_tagged by auto; left; auto).
  rewrite (ascending_unique _ 0 t tag (lines_of_ascending _) Hin H0) in Hb.
  destruct (good_tag_bar _ Hg). congruence.
Qed.

Lemma seen_spec T cap m r o t : 51 <= length T -> wf_master cap m -> wf_rem r ->
  In (o, t) (lines_of m) -> bar_line t = false ->
  removed_in (removals_seen T m r) o = spec_removed m r o.
Proof.
  intros HT Hm Hr Hin Hb. pose proof (pos_off cap m o t Hm Hin Hb) as Hpos.
  destruct Hm as ((_ & _ & Hsz) & tag & rest & Em & Hg).
  rewrite removed_in_eq. rewrite (not_too_big m o t Hsz Hin). cbn [negb andb].
  unfold removals_seen. destruct r as [rf|]; [|reflexivity].
  destruct Hr as (tag' & os & -> & Ht & Hos). destruct tag' as [tag'|].
  - rewrite (for_each_removal_tagged T m tag rest tag' os) by auto.
    rewrite Em, spec_removed_tagged by auto.
    destruct (eqb_bytes tag tag'); [|reflexivity]. cbn [andb]. apply mem_offs; auto.
  - rewrite (for_each_removal_untagged T m tag rest os) by auto.
    rewrite Em, spec_removed_untagged by auto. reflexivity.
Qed.

Lemma visible_seen T cap m r : 51 <= length T -> wf_master cap m -> wf_rem r ->
  visible (removed_in (removals_seen T m r)) m = view_master m r.
Proof.
  intros. unfold view_master, visible. apply visible_from_ext2. intros. eapply seen_spec; eauto.
Qed.

Lemma visible_none_removed f : visible (removed_in []) f = visible none_removed f.
Proof. unfold visible. apply visible_from_ext. intros. rewrite removed_in_eq. apply andb_false_r. Qed.

Lemma lines_fit_mono a b ls : a <= b -> lines_fit a ls -> lines_fit b ls.
Proof. intros H. apply Forall_impl. intros. lia. Qed.

(** ** A session *)

Section Session.
Variable G T : bytes.
Hypothesis HG : 1 < length G.
Hypothesis HT : 51 <= length T.

Definition wf (m : bytes) (s : sess) : Prop :=
  wf_master (length G) m /\ wf_bank (length G) (s_lines s) /\ wf_rem (s_rem s) /\
  (s_lines s = None -> s_rem s = None).

Definition sview (m : bytes) (s : sess) : list ventry * list ventry :=
  (view_master m (s_rem s), view_session (s_lines s)).
Definition stexts (m : bytes) (s : sess) : list bytes := texts m (s_rem s) (s_lines s).

Lemma fits_G f : fits (length G) f -> lines_fit (length G) (lines_of f).
Proof. intros (_ & H & _). eapply lines_fit_mono; [|exact H]. lia. Qed.

(** C05 *)
Lemma db_find_ok line m s : wf m s ->
  db_find G T line m s =
  Some (match find (wanted line) (fst (sview m s)) with
        | Some e => Some (line_id bank_master (v_off e))
        | None => option_map (fun e => line_id bank_session (v_off e)) (find (wanted line) (snd (sview m s)))
        end).
Proof.
  intros (Hm & Hl & Hr & Hn). unfold db_find.
  destruct (init_good m G (removals_seen T m (s_rem s))) as (Hgd & Hp & Hlp).
  { lia. } { apply Hm. } { apply fits_G. apply Hm. }
  rewrite (find_first_ok (length G)) by (auto; rewrite ?Hlp; unfold measure, li_fuel; rewrite ?Hlp; lia).
  rewrite Hp. cbn [li_removals li_init].
  change (visible_from ?rm None (lines_of m)) with (visible rm m).
  rewrite (visible_seen T (length G)) by auto. cbn [fst snd sview].
  destruct (find (wanted line) (view_master m (s_rem s))) as [e|]; cbn [option_map]; auto.
  destruct (s_lines s) as [l|]; [|reflexivity]. cbn [view_session].
  destruct (init_good l G []) as (Hgd2 & Hp2 & Hlp2).
  { lia. } { apply Hl. } { apply fits_G. apply Hl. }
  rewrite (find_first_ok (length G)) by (auto; rewrite ?Hlp2; unfold measure, li_fuel; rewrite ?Hlp2; lia).
  rewrite Hp2. cbn [li_removals li_init].
  change (visible_from ?rm None (lines_of l)) with (visible rm l). rewrite visible_none_removed.
  destruct (find (wanted line) (visible none_removed l)); reflexivity.
Qed.

(** *** Keeping well-formedness *)

Lemma lines_fit_map cap (p : nat * bytes -> bool) ls : lines_fit cap ls -> (forall l, In l ls -> snd l <> []) ->
  lines_fit cap (map (fun l => if p l then (fst l, BAR :: tl (snd l)) else l) ls).
Proof.
  intros H Hne. apply Forall_forall. intros l Hl. apply in_map_iff in Hl as (x & <- & Hx).
  unfold lines_fit in H. rewrite Forall_forall in H. specialize (H x Hx). specialize (Hne x Hx).
  destruct (p x); auto. cbn. destruct (snd x); [congruence|]. exact H.
Qed.

Lemma fits_lines_map cap f f' (p : nat * bytes -> bool) : fits cap f -> terminated f' -> length f' = length f ->
  lines_of f' = map (fun l => if p l then (fst l, BAR :: tl (snd l)) else l) (lines_of f) -> fits cap f'.
Proof.
  intros (Ht & Hf & Hs) Ht' Hl E. split; [|split]; auto.
  - rewrite E. apply lines_fit_map; auto. intros [o t] Hin. apply lines_of_text in Hin. apply Hin.
  - rewrite Hl. exact Hs.
Qed.

(** The tag survives marking of other lines. *)
Lemma mark_prefix f o p : p <= o -> o < length f -> firstn p (wl_mark f o) = firstn p f.
Proof.
  intros Hp Ho. unfold wl_mark. rewrite write_at_inside by auto.
  rewrite firstn_app. rewrite firstn_firstn. rewrite firstn_length.
  replace (p - Nat.min o (length f)) with 0 by lia. cbn [firstn]. rewrite app_nil_r.
  f_equal. lia.
Qed.

Lemma marks_prefix os p : forall f, Forall (fun o => p <= o < length f) os ->
  firstn p (fold_left wl_mark os f) = firstn p f.
Proof.
  induction os as [|o os IH]; intros f H; cbn [fold_left]; auto.
  pose proof (Forall_inv H) as [H1 H2]. apply Forall_inv_tail in H. rewrite IH.
  - apply mark_prefix; auto.
  - rewrite mark_length; auto.
Qed.

Lemma tagged_prefix m tag : firstn (S (length tag)) m = tag ++ [LF] -> exists rest, m = tag ++ LF :: rest.
Proof.
  intro H. exists (skipn (S (length tag)) m). rewrite <- (firstn_skipn (S (length tag)) m) at 1.
  rewrite H, <- app_assoc. reflexivity.
Qed.

Lemma firstn_tagged tag rest : firstn (S (length tag)) (tag ++ LF :: rest) = tag ++ [LF].
Proof.
  replace (S (length tag)) with (length tag + 1) by lia. rewrite firstn_app_2. reflexivity.
Qed.

Lemma line_after_tag tag rest o t : good_tag tag -> In (o, t) (lines_of (tag ++ LF :: rest)) ->
  bar_line t = false -> S (length tag) <= o.
Proof.
  intros Hg Hin Hb. rewrite lines_tagged in Hin by auto. destruct Hin as [Hin|Hin].
  - injection Hin as <- <-. destruct (good_tag_bar _ Hg). congruence.
  - apply raw_lines_bounds in Hin; [|cbn; lia]. cbn in Hin. lia.
Qed.

Lemma marks_tagged rm tag rest os : good_tag tag -> Forall (markable rm (tag ++ LF :: rest)) os ->
  exists rest', fold_left wl_mark os (tag ++ LF :: rest) = tag ++ LF :: rest'.
Proof.
  intros Hg Hm. apply tagged_prefix. rewrite marks_prefix.
  - apply firstn_tagged.
  - eapply Forall_impl; [|exact Hm]. intros o (t & Hin & Hb & _). split.
    + eapply line_after_tag; eauto.
    + apply lines_of_bounds in Hin. lia.
Qed.

(** *** remove(line) *)

Lemma more_removed rm p ls : forall ts ts',
  map off_text (visible_from (fun o => rm o || p o) ts ls) =
  filter (fun l => negb (p (fst l))) (map off_text (visible_from rm ts' ls)).
Proof.
  induction ls as [|[o t] ls IH]; intros ts ts'; cbn [visible_from map filter]; auto.
  destruct (time_line t); [apply IH|]. destruct (bar_line t); [apply IH|].
  destruct (rm o); cbn [orb]; [apply IH|].
  cbn [map filter off_text v_off v_text fst]. destruct (p o); cbn [negb]; [apply IH|].
  cbn [map off_text v_off v_text]. f_equal. apply IH.
Qed.

Lemma filter_map {A B} (g : A -> B) p l : filter p (map g l) = map g (filter (fun x => p (g x)) l).
Proof. induction l as [|x l IH]; cbn; auto. destruct (p (g x)); cbn; rewrite IH; auto. Qed.

Lemma filter_length_le {A} (p : A -> bool) l : length (filter p l) <= length l.
Proof. induction l as [|x l IH]; cbn; auto. destruct (p x); cbn; lia. Qed.

Lemma view_offs_bound m r e : (N.of_nat (length m) <= max_off)%N -> In e (view_master m r) -> (N.of_nat (v_off e) < max_off)%N.
Proof.
  intros Hs He. apply visible_from_in in He as (Hin & _). apply lines_of_bounds in Hin. lia.
Qed.

Lemma mem_nat_app a b o : mem_nat o (a ++ b) = mem_nat o a || mem_nat o b.
Proof. unfold mem_nat. apply existsb_app. Qed.

Lemma wf_master_marks rm m os : wf_master (length G) m -> NoDup os -> Forall (markable rm m) os ->
  wf_master (length G) (fold_left wl_mark os m).
Proof.
  intros (Hf & tag & rest & Em & Hg) Hnd Hm. split.
  - eapply fits_lines_map; [exact Hf| | |].
    + eapply marks_terminated; eauto. apply Hf.
    + apply marks_length. eapply Forall_impl; [|exact Hm]. intros o (t & Hin & _). apply lines_of_bounds in Hin. lia.
    + eapply (marks_lines os rm); eauto.
  - subst m. destruct (marks_tagged rm tag rest os Hg Hm) as [rest' E]. eauto.
Qed.

Lemma marks_tag_of rm m os tag rest : m = tag ++ LF :: rest -> good_tag tag -> Forall (markable rm m) os ->
  exists rest', fold_left wl_mark os m = tag ++ LF :: rest'.
Proof. intros -> Hg Hm. eapply marks_tagged; eauto. Qed.

(** The fields that operations on the files leave alone. *)
Definition same_mem (s s' : sess) : Prop :=
  s_ctag s' = s_ctag s /\ s_map s' = s_map s /\ s_mlen s' = s_mlen s /\ s_mdel s' = s_mdel s.

Lemma remove_text_master_ok line m s : wf m s -> rem_current m (s_rem s) -> fakes_time line = false ->
  exists m' s', remove_text_master G T line m s =
    Some (m', s', length (filter (wanted line) (view_master m (s_rem s)))) /\
  map off_text (view_master m' (s_rem s')) =
    map off_text (filter (fun e => negb (wanted line e)) (view_master m (s_rem s))) /\
  (s_rem s = None -> view_master m' None = filter (fun e => negb (wanted line e)) (view_master m None)) /\
  wf m' s' /\ rem_current m' (s_rem s') /\
  s_lines s' = s_lines s /\ same_mem s s' /\ length m' = length m /\ 
  (s_rem s <> None -> m' = m) /\ (s_rem s = None -> s' = s).
Proof.
  intros (Hm & Hl & Hr & Hn) Hcur Hfk. unfold remove_text_master.
  destruct (s_rem s) as [r|] eqn:Er.
  - destruct (init_good m G (removals_seen T m (Some r))) as (Hgd & Hp & Hlp).
    { lia. } { apply Hm. } { apply fits_G. apply Hm. }
    rewrite (find_defer_ok (length G)) by (auto; rewrite ?Hlp; unfold measure, li_fuel; rewrite ?Hlp; lia).
    rewrite Hp. cbn [li_removals li_init].
    change (visible_from ?rm None (lines_of m)) with (visible rm m).
    rewrite (visible_seen T (length G)) by auto.
    destruct Hcur as (tag & rest & os & Em & Hg & -> & Hos).
    set (V := view_master m (Some (rem_file (Some tag) os))).
    set (hits := map v_off (filter (wanted line) V)).
    rewrite defer_rem_file. cbn [Nat.add].
    exists m, (set_rem s (Some (rem_file (Some tag) (os ++ hits)))).
    assert (Hos2 : Forall (fun o => (N.of_nat o < max_off)%N) (os ++ hits)).
    { apply Forall_app. split; auto. apply Forall_forall. intros o Ho. unfold hits in Ho.
      apply in_map_iff in Ho as (e & <- & He). apply filter_In in He as [He _].
      eapply view_offs_bound; [|exact He]. apply Hm. }
    split; [reflexivity|]. split; [|split; [discriminate|split; [|split; [|split; [|split; [|split; [|split]]]]]]].
    + cbn [set_rem s_rem]. unfold view_master, visible.
      rewrite (visible_from_ext (spec_removed m (Some (rem_file (Some tag) (os ++ hits))))
                 (fun o => spec_removed m (Some (rem_file (Some tag) os)) o || mem_nat o hits)).
      * rewrite (more_removed _ (fun o => mem_nat o hits) _ None None). rewrite filter_map. f_equal.
        apply filter_ext_in'. intros e He. cbn [off_text fst]. unfold hits, V.
        unfold view_master. rewrite hits_mem by exact He. reflexivity.
      * intros o t Hin. rewrite Em, !spec_removed_tagged by auto. rewrite eqb_bytes_refl, mem_nat_app. reflexivity.
    + split; [exact Hm|]. split; [exact Hl|]. split.
      * cbn [set_rem s_rem wf_rem]. exists (Some tag), (os ++ hits). split; [reflexivity|]. split; [|exact Hos2].
        intros t E. injection E as <-. exact Hg.
      * cbn [set_rem s_lines s_rem]. intro E. specialize (Hn E). discriminate.
    + cbn [set_rem s_rem rem_current]. exists tag, rest, (os ++ hits). auto.
    + reflexivity.
    + unfold same_mem, set_rem. cbn. auto.
    + reflexivity.
    + reflexivity.
    + discriminate.
  - change (removals_seen T m None) with (@nil nat).
    destruct (remove_text_file_ok G [] line m) as (m' & E & Hv & Ht' & Hlen & Hls).
    { apply Hm. } { apply fits_G. apply Hm. } { lia. } { exact Hfk. }
    rewrite !visible_none_removed in *.
    change (visible none_removed m) with (view_master m None) in *.
    change (visible none_removed m') with (view_master m' None) in *.
    rewrite E. exists m', s. rewrite Er.
    split; [reflexivity|]. split; [|split; [|split; [|split; [|split; [|split; [|split; [|split]]]]]]].
    + rewrite Hv. reflexivity.
    + intros _. exact Hv.
    + split; [|split; [exact Hl|split; [rewrite Er; exact I|auto]]].
      pose proof (hits_markable (removed_in []) m line (or_intror I) Hfk) as Hmk.
      pose proof (find_remove_ok (length G) (li_fuel m) line ltac:(lia) (S (length m)) m (li_init m G []) 0) as Hfr.
      destruct (init_good m G []) as (Hgd & Hp & Hlp).
      { lia. } { apply Hm. } { apply fits_G. apply Hm. }
      cbv zeta in Hfr. rewrite Hfr, Hp in E by (auto; rewrite ?Hlp; unfold measure, li_fuel; rewrite ?Hlp; lia).
      cbn [li_removals li_init] in E. injection E as E _. rewrite <- E.
      eapply wf_master_marks; [exact Hm| |exact Hmk].
      apply NoDup_map_filter. apply visible_offs_nodup.
    + exact I.
    + reflexivity.
    + unfold same_mem. auto.
    + exact Hlen.
    + congruence.
    + reflexivity.
Qed.

Lemma view_session_eq l : view_session (Some l) = visible (removed_in []) l.
Proof. cbn. symmetry. apply visible_none_removed. Qed.

Lemma remove_text_session_ok line m s : wf m s -> fakes_time line = false ->
  exists s', remove_text_session G line s =
    Some (s', length (filter (wanted line) (view_session (s_lines s)))) /\
  view_session (s_lines s') = filter (fun e => negb (wanted line e)) (view_session (s_lines s)) /\
  wf m s' /\ s_rem s' = s_rem s /\ same_mem s s' /\
  option_map (@length _) (s_lines s') = option_map (@length _) (s_lines s).
Proof.
  intros (Hm & Hl & Hr & Hn) Hfk. unfold remove_text_session.
  destruct (s_lines s) as [l|] eqn:El.
  - destruct (remove_text_file_ok G [] line l) as (l' & E & Hv & Ht' & Hlen & Hls).
    { apply Hl. } { apply fits_G. apply Hl. } { lia. } { exact Hfk. }
    rewrite E. exists (set_lines s (Some l')). rewrite !view_session_eq. split; [reflexivity|].
    cbn [set_lines s_lines]. rewrite view_session_eq.
    split; [exact Hv|]. split; [|split; [reflexivity|split]].
    + split; [exact Hm|]. split; [|split; [exact Hr|discriminate]].
      cbn [set_lines s_lines wf_bank]. exact (fits_lines_map (length G) l l' (fun x => mem_nat (fst x) _) Hl Ht' Hlen Hls).
    + unfold same_mem, set_lines. cbn. auto.
    + cbn. f_equal. exact Hlen.
  - exists s. rewrite El. split; [reflexivity|]. split; [reflexivity|].
    split; [unfold wf; rewrite El; auto|]. split; [reflexivity|]. split; [unfold same_mem; auto|reflexivity].
Qed.

Lemma map_text_filter line l :
  map v_text (filter (fun e => negb (wanted line e)) l) = filter (fun t => negb (eqb_bytes line t)) (map v_text l).
Proof. rewrite filter_map. reflexivity. Qed.

Lemma map_off_text l l' : map off_text l = map off_text l' -> map v_text l = map v_text l'.
Proof.
  intro H. apply (f_equal (map snd)) in H. rewrite !map_map in H. exact H.
Qed.

(** C04 *)
Lemma db_remove_text_ok line m s : wf m s -> rem_current m (s_rem s) -> fakes_time line = false ->
  exists m' s', db_remove_text G T line m s =
    Some (m', s', length (filter (wanted line) (fst (sview m s))) + length (filter (wanted line) (snd (sview m s)))) /\
  map off_text (fst (sview m' s')) = map off_text (filter (fun e => negb (wanted line e)) (fst (sview m s))) /\
  snd (sview m' s') = filter (fun e => negb (wanted line e)) (snd (sview m s)) /\
  (s_rem s = None -> fst (sview m' s') = filter (fun e => negb (wanted line e)) (fst (sview m s))) /\
  stexts m' s' = filter (fun t => negb (eqb_bytes line t)) (stexts m s) /\
  wf m' s' /\ rem_current m' (s_rem s') /\ same_mem s s' /\
  length m' = length m /\ option_map (@length _) (s_lines s') = option_map (@length _) (s_lines s).
Proof.
  intros Hwf Hcur Hfk.
  destruct (remove_text_master_ok line m s Hwf Hcur Hfk) as (m1 & s1 & E1 & V1 & N1 & W1 & C1 & L1 & M1 & Len1 & X1 & X2).
  destruct (remove_text_session_ok line m1 s1 W1 Hfk) as (s2 & E2 & V2 & W2 & R2 & M2 & Len2).
  exists m1, s2. unfold db_remove_text. rewrite E1, E2. rewrite L1 in *. cbn [sview fst snd]. rewrite R2.
  split; [reflexivity|]. split; [exact V1|]. split; [exact V2|].
  split; [|split; [|split; [|split; [|split; [|split]]]]]; auto.
  - intro Hn. rewrite (X2 Hn), Hn. apply N1. exact Hn.
  - unfold stexts, texts. rewrite R2, V2. rewrite (map_off_text _ _ V1). rewrite !map_text_filter.
    rewrite filter_app. reflexivity.
  - unfold same_mem in *. destruct M1 as (A & B & C & D), M2 as (A' & B' & C' & D').
    repeat split; congruence.
Qed.

(** *** add *)

Lemma ts_after_none_snoc rm ts ls o t : bar_line t = false -> rm o = false -> ts_after rm ts (ls ++ [(o, t)]) = None.
Proof.
  intros Hb Hr. rewrite ts_after_app. cbn [ts_after]. rewrite (bar_false_time t Hb), Hb, Hr. reflexivity.
Qed.

Lemma no_dangling_ts f : no_dangling f -> ts_after none_removed None (lines_of f) = None.
Proof.
  unfold no_dangling. intro H. destruct (lines_of f) as [|l0 ls0] using rev_ind; [reflexivity|].
  destruct l0 as [o t]. specialize (H _ _ _ eq_refl).
  rewrite ts_after_app. cbn [ts_after]. rewrite H. unfold none_removed. destruct (bar_line t); reflexivity.
Qed.

Definition stamp_ok (cap : nat) (now : N) : Prop := length (stamp_line now) < cap - 1.

Lemma stamp_line_props now : stamp_line now <> [] /\ no_brk (stamp_line now) = true /\
  time_line (stamp_line now) = true /\ skipn 7 (stamp_line now) = dec (now mod 4294967296)%N /\
  length (stamp_line now) <= 17.
Proof.
  unfold stamp_line. split; [discriminate|]. split; [|split; [|split]].
  - unfold no_brk. rewrite forallb_app. apply andb_true_iff. split; [reflexivity|]. apply dec_nobrk.
  - apply prefixb_app.
  - reflexivity.
  - rewrite app_length. change (length time_prefix) with 7.
    assert (length (dec (now mod 4294967296)%N) <= 10); [|lia].
    apply dec_len; [|lia]. change (10 ^ N.of_nat 10)%N with 10000000000%N.
    pose proof (N.mod_upper_bound now 4294967296). lia.
Qed.

Definition added (stamp : bool) (now : N) (line f : bytes) : ventry :=
  if stamp then mkV (length f + S (length (stamp_line now))) line (Some (length f, dec (now mod 4294967296)%N))
  else mkV (length f) line None.

Lemma add_to_file_lines stamp now line f : terminated f -> line <> [] -> no_brk line = true ->
  lines_of (add_to_file stamp now line f) =
  lines_of f ++ (if stamp then [(length f, stamp_line now); (length f + S (length (stamp_line now)), line)]
                 else [(length f, line)]) /\ terminated (add_to_file stamp now line f).
Proof.
  intros Ht Hne Hnb. destruct (stamp_line_props now) as (S1 & S2 & S3 & S4 & _).
  unfold add_to_file, wl_add. cbn [fst]. destruct stamp.
  - split; [|apply terminated_add].
    rewrite lines_of_add; auto; [|apply terminated_add]. rewrite lines_of_add by auto.
    rewrite <- app_assoc. cbn [app]. do 4 f_equal. rewrite !app_length. cbn. lia.
  - split; [|apply terminated_add]. rewrite lines_of_add by auto. reflexivity.
Qed.

(** [rm] does not mention the new positions. *)
Lemma add_to_file_visible rm stamp now line f : terminated f -> line <> [] -> no_brk line = true ->
  bar_line line = false -> (forall o, length f <= o -> rm o = false) ->
  (stamp = false -> ts_after rm None (lines_of f) = None) ->
  visible rm (add_to_file stamp now line f) = visible rm f ++ [added stamp now line f].
Proof.
  intros Ht Hne Hnb Hb Hr Hd. destruct (stamp_line_props now) as (S1 & S2 & S3 & S4 & _).
  destruct (add_to_file_lines stamp now line f Ht Hne Hnb) as [E _].
  unfold visible. rewrite E, visible_from_app. f_equal. destruct stamp; cbn [visible_from added].
  - rewrite S3, (bar_false_time _ Hb), Hb, Hr by lia. rewrite S4. reflexivity.
  - rewrite (bar_false_time _ Hb), Hb, Hr by lia. rewrite Hd by auto. reflexivity.
Qed.

Lemma lines_fit_app cap a b : lines_fit cap a -> lines_fit cap b -> lines_fit cap (a ++ b).
Proof. intros. apply Forall_app. auto. Qed.

Lemma add_to_file_fits stamp now line f : fits (length G) f -> line <> [] -> no_brk line = true ->
  length line < length G - 1 -> (stamp = true -> 17 < length G - 1) ->
  (N.of_nat (length (add_to_file stamp now line f)) <= max_off)%N ->
  fits (length G) (add_to_file stamp now line f).
Proof.
  intros (Ht & Hf & _) Hne Hnb Hl Hst Hs. destruct (add_to_file_lines stamp now line f Ht Hne Hnb) as [E T'].
  destruct (stamp_line_props now) as (_ & _ & _ & _ & S5).
  split; [exact T'|]. split; [|exact Hs]. rewrite E. apply lines_fit_app; auto.
  destruct stamp; repeat constructor; cbn [snd]; auto. specialize (Hst eq_refl). lia.
Qed.

Lemma add_to_file_prefix stamp now line f : exists x, add_to_file stamp now line f = f ++ x.
Proof.
  unfold add_to_file, wl_add. cbn [fst]. destruct stamp; [|eauto]. rewrite <- app_assoc. eauto.
Qed.

(** What add needs to know about the line and the sizes. *)
Definition can_add (cfg : config) (line : bytes) (now : N) (m : bytes) (s : sess) : Prop :=
  plain line /\ length line < length G - 1 /\ (c_stamp cfg = true -> 17 < length G - 1) /\
  match s_lines s with
  | None => (N.of_nat (length (add_to_file (c_stamp cfg) now line m)) <= max_off)%N
  | Some l => (N.of_nat (length (add_to_file (c_stamp cfg) now line l)) <= max_off)%N
  end.

Definition active_file (m : bytes) (s : sess) : bytes := match s_lines s with None => m | Some l => l end.

Lemma add_line_ok cfg now line m s m' s' : wf m s -> rem_current m (s_rem s) -> can_add cfg line now m s ->
  add_line (c_stamp cfg) now line m s = (m', s') ->
  wf m' s' /\ rem_current m' (s_rem s') /\ same_mem s s' /\ s_rem s' = s_rem s /\
  stexts m' s' = stexts m s ++ [line] /\
  (c_stamp cfg = true \/ no_dangling (active_file m s) ->
     match s_lines s with
     | None => fst (sview m' s') = fst (sview m s) ++ [added (c_stamp cfg) now line m] /\
               snd (sview m' s') = snd (sview m s)
     | Some l => fst (sview m' s') = fst (sview m s) /\
                 snd (sview m' s') = snd (sview m s) ++ [added (c_stamp cfg) now line l]
     end).
Proof.
  intros (Hm & Hl & Hr & Hn) Hcur ((Hne & Hnb & Hb & Hfk) & Hlen & Hst & Hsz) E.
  unfold add_line in E. destruct (s_lines s) as [l|] eqn:El.
  - injection E as <- <-.
    assert (Hfits : fits (length G) (add_to_file (c_stamp cfg) now line l)) by (apply add_to_file_fits; auto).
    split; [|split; [|split; [|split; [|split]]]].
    + split; [exact Hm|]. split; [exact Hfits|]. split; [exact Hr|discriminate].
    + exact Hcur.
    + unfold same_mem, set_lines. cbn. auto.
    + reflexivity.
    + unfold stexts, texts. cbn [set_lines s_rem s_lines]. rewrite El. rewrite <- app_assoc. f_equal.
      cbn [view_session]. destruct Hl as (Ht & _).
      destruct (add_to_file_lines (c_stamp cfg) now line l Ht Hne Hnb) as [E _].
      unfold visible. rewrite E, visible_from_app, map_app. f_equal.
      destruct (stamp_line_props now) as (S1 & S2 & S3 & S4 & _).
      destruct (c_stamp cfg); cbn [visible_from]; rewrite ?S3, (bar_false_time _ Hb), Hb; reflexivity.
    + intros Hd. cbn [sview fst snd set_lines s_rem s_lines]. rewrite El. split; [reflexivity|].
      cbn [view_session]. apply add_to_file_visible; auto; [apply Hl|].
      intro Hs. destruct Hd as [Hd|Hd]; [congruence|]. unfold active_file in Hd. rewrite El in Hd. apply no_dangling_ts. exact Hd.
  - injection E as <- <-. specialize (Hn eq_refl). rewrite Hn in *.
    assert (Hfits : fits (length G) (add_to_file (c_stamp cfg) now line m)) by (apply add_to_file_fits; auto; apply Hm).
    split; [|split; [|split; [|split; [|split]]]].
    + split.
      * split; [exact Hfits|]. destruct Hm as (_ & tag & rest & -> & Hg).
        destruct (add_to_file_prefix (c_stamp cfg) now line (tag ++ LF :: rest)) as [x ->].
        exists tag, (rest ++ x). rewrite <- app_assoc. auto.
      * rewrite El, Hn. auto.
    + exact I.
    + unfold same_mem. auto.
    + reflexivity.
    + unfold stexts, texts. rewrite El, Hn. cbn [view_session map]. rewrite !app_nil_r.
      unfold view_master. destruct Hm as ((Ht & _) & _).
      destruct (add_to_file_lines (c_stamp cfg) now line m Ht Hne Hnb) as [E _].
      unfold visible. rewrite E, visible_from_app, map_app. f_equal.
      destruct (stamp_line_props now) as (S1 & S2 & S3 & S4 & _).
      destruct (c_stamp cfg); cbn [visible_from]; rewrite ?S3, (bar_false_time _ Hb), Hb; reflexivity.
    + intros Hd. cbn [sview fst snd]. rewrite El, Hn. split; [|reflexivity].
      unfold view_master. apply (add_to_file_visible none_removed); auto; [apply Hm|].
      intro Hs. destruct Hd as [Hd|Hd]; [congruence|]. unfold active_file in Hd. rewrite El in Hd. apply no_dangling_ts. exact Hd.
Qed.

(** *** db_add: all duplicate modes *)

Definition spec_add (mode : nat) (line : bytes) (ts : list bytes) : list bytes :=
  match mode with
  | 1 => if existsb (eqb_bytes line) ts then ts else ts ++ [line]
  | 2 => filter (fun t => negb (eqb_bytes line t)) ts ++ [line]
  | _ => ts ++ [line]
  end.

Lemma find_existsb line l : (exists e, find (wanted line) l = Some e) <-> existsb (eqb_bytes line) (map v_text l) = true.
Proof.
  induction l as [|e l IH]; cbn [find map existsb].
  - split; [intros [e H]; discriminate|discriminate].
  - unfold wanted at 1. destruct (eqb_bytes line (v_text e)); cbn [orb]; [split; eauto|exact IH].
Qed.

Lemma find_none_existsb line l : find (wanted line) l = None -> existsb (eqb_bytes line) (map v_text l) = false.
Proof.
  intro H. apply not_true_iff_false. intro E. apply find_existsb in E as [e E]. congruence.
Qed.

Lemma add_to_file_length stamp now line f :
  length (add_to_file stamp now line f) = length f + (if stamp then S (length (stamp_line now)) else 0) + S (length line).
Proof.
  unfold add_to_file, wl_add. cbn [fst]. destruct stamp; rewrite !app_length; cbn [length]; lia.
Qed.

Lemma can_add_same cfg line now m s m' s' : length m' = length m ->
  option_map (@length _) (s_lines s') = option_map (@length _) (s_lines s) ->
  can_add cfg line now m s -> can_add cfg line now m' s'.
Proof.
  intros H1 H2 (A & B & C & D). split; [exact A|]. split; [exact B|]. split; [exact C|].
  destruct (s_lines s) as [l|], (s_lines s') as [l'|]; cbn in H2; try discriminate;
    rewrite add_to_file_length in *; [injection H2 as H2; rewrite H2|rewrite H1]; exact D.
Qed.

(** Length of the file that add extends. *)
Definition active_len (m : bytes) (s : sess) : nat := length (active_file m s).

Lemma db_add_ok cfg now line m s : wf m s -> rem_current m (s_rem s) -> can_add cfg line now m s ->
  ignored cfg line = false ->
  exists m' s', db_add G T cfg now line m s = Some (m', s', true) /\
    wf m' s' /\ rem_current m' (s_rem s') /\ same_mem s s' /\
    stexts m' s' = spec_add (c_dupe cfg) line (stexts m s) /\
    active_len m' s' <= active_len m s + length line + 19 /\
    (s_lines s = None <-> s_lines s' = None).
Proof.
  intros Hwf Hcur Hadd Hi. unfold db_add. rewrite Hi.
  assert (Hbase : forall m1 s1, wf m1 s1 -> rem_current m1 (s_rem s1) -> can_add cfg line now m1 s1 ->
    exists m' s', (let '(m', s') := add_line (c_stamp cfg) now line m1 s1 in Some (m', s', true)) = Some (m', s', true) /\
      wf m' s' /\ rem_current m' (s_rem s') /\ same_mem s1 s' /\
      stexts m' s' = stexts m1 s1 ++ [line] /\ active_len m' s' <= active_len m1 s1 + length line + 19 /\
      (s_lines s1 = None <-> s_lines s' = None)).
  { intros m1 s1 H1 H2 H3. destruct (add_line (c_stamp cfg) now line m1 s1) as [m' s'] eqn:E.
    destruct (add_line_ok cfg now line m1 s1 m' s' H1 H2 H3 E) as (A & B & C & D & F & _).
    exists m', s'. split; [reflexivity|]. split; [exact A|]. split; [exact B|]. split; [exact C|]. split; [exact F|].
    destruct (stamp_line_props now) as (_ & _ & _ & _ & S5).
    unfold add_line in E. unfold active_len, active_file. destruct (s_lines s1) as [l|] eqn:El; injection E as <- <-.
    - cbn [set_lines s_lines]. rewrite add_to_file_length. split; [destruct (c_stamp cfg); lia|].
      split; discriminate.
    - rewrite El. rewrite add_to_file_length. split; [destruct (c_stamp cfg); lia|tauto]. }
  destruct (c_dupe cfg) as [|[|[|k]]] eqn:Ed; cbn [spec_add].
  - apply Hbase; auto.
  - rewrite (db_find_ok line m s Hwf). cbn [sview fst snd].
    assert (Hx : existsb (eqb_bytes line) (stexts m s) =
                 existsb (eqb_bytes line) (map v_text (view_master m (s_rem s))) ||
                 existsb (eqb_bytes line) (map v_text (view_session (s_lines s)))) by (apply existsb_app).
    destruct (find (wanted line) (view_master m (s_rem s))) as [e|] eqn:E1.
    + assert (H : existsb (eqb_bytes line) (map v_text (view_master m (s_rem s))) = true) by (apply find_existsb; eauto).
      rewrite Hx, H. cbn [orb]. exists m, s. do 3 (split; [auto|]). split; [unfold same_mem; auto|].
      split; [reflexivity|]. split; [lia|tauto].
    + apply find_none_existsb in E1. rewrite Hx, E1. cbn [orb].
      destruct (find (wanted line) (view_session (s_lines s))) as [e|] eqn:E2; cbn [option_map].
      * assert (H : existsb (eqb_bytes line) (map v_text (view_session (s_lines s))) = true) by (apply find_existsb; eauto).
        rewrite H. exists m, s. do 3 (split; [auto|]). split; [unfold same_mem; auto|].
        split; [reflexivity|]. split; [lia|tauto].
      * apply find_none_existsb in E2. rewrite E2. apply Hbase; auto.
  - destruct (db_remove_text_ok line m s Hwf Hcur) as (m1 & s1 & E & _ & _ & _ & Ht & W1 & C1 & M1 & L1 & L2).
    { destruct Hadd as ((_ & _ & _ & H) & _). exact H. }
    rewrite E. destruct (Hbase m1 s1 W1 C1) as (m' & s' & E' & W' & C' & M' & T' & L' & N').
    { eapply can_add_same; eauto. }
    exists m', s'. split; [exact E'|]. split; [exact W'|]. split; [exact C'|].
    split; [unfold same_mem in *; intuition congruence|]. rewrite T', Ht. split; [reflexivity|]. split.
    + assert (active_len m1 s1 = active_len m s); [|lia]. unfold active_len, active_file.
      destruct (s_lines s), (s_lines s1); cbn in L2; congruence.
    + destruct (s_lines s), (s_lines s1); cbn in L2; try discriminate; rewrite <- N'; intuition congruence.
  - apply Hbase; auto.
Qed.

Lemma db_add_ignored cfg now line m s : ignored cfg line = true -> db_add G T cfg now line m s = Some (m, s, false).
Proof. intro H. unfold db_add. rewrite H. reflexivity. Qed.

(** C06: sequences of adds *)
Fixpoint run_adds (cfg : config) (ls : list (N * bytes)) (m : bytes) (s : sess) : option (bytes * sess) :=
  match ls with
  | [] => Some (m, s)
  | (now, line) :: ls' =>
      match db_add G T cfg now line m s with
      | Some (m', s', _) => run_adds cfg ls' m' s'
      | None => None
      end
  end.

Definition add_cost (l : N * bytes) : nat := length (snd l) + 19.
Definition all_cost (ls : list (N * bytes)) : nat := list_sum (map add_cost ls).

Lemma all_cost_cons l ls : all_cost (l :: ls) = add_cost l + all_cost ls.
Proof. reflexivity. Qed.

Lemma spec_add_nodup_erase line ts : NoDup ts -> NoDup (spec_add 2 line ts).
Proof.
  intro H. cbn. apply NoDup_rev in H. rewrite <- (rev_involutive (_ ++ _)). apply NoDup_rev.
  rewrite rev_app_distr. cbn. constructor.
  - intro Hin. apply in_rev in Hin. apply filter_In in Hin as [_ Hin]. rewrite eqb_bytes_refl in Hin. discriminate.
  - apply NoDup_rev. apply NoDup_filter. rewrite <- rev_involutive. apply NoDup_rev. exact H.
Qed.

Lemma spec_add_nodup_ignore line ts : NoDup ts -> NoDup (spec_add 1 line ts).
Proof.
  intro H. cbn. destruct (existsb (eqb_bytes line) ts) eqn:E; auto.
  rewrite <- (rev_involutive (_ ++ _)). apply NoDup_rev. rewrite rev_app_distr. cbn. constructor.
  - intro Hin. apply in_rev in Hin. apply not_true_iff_false in E. apply E. apply existsb_exists.
    exists line. rewrite eqb_bytes_refl. auto.
  - apply NoDup_rev. exact H.
Qed.

Definition addable (cfg : config) (l : N * bytes) : Prop :=
  ignored cfg (snd l) = true \/ (plain (snd l) /\ length (snd l) < length G - 1).

Definition spec_adds (cfg : config) (ls : list (N * bytes)) (ts : list bytes) : list bytes :=
  fold_left (fun ts l => if ignored cfg (snd l) then ts else spec_add (c_dupe cfg) (snd l) ts) ls ts.

Lemma run_adds_ok cfg ls : forall m s, wf m s -> rem_current m (s_rem s) ->
  (c_stamp cfg = true -> 18 < length G) -> Forall (addable cfg) ls ->
  (N.of_nat (active_len m s + all_cost ls) <= max_off)%N ->
  exists m' s', run_adds cfg ls m s = Some (m', s') /\ wf m' s' /\ rem_current m' (s_rem s') /\
    stexts m' s' = spec_adds cfg ls (stexts m s).
Proof.
  induction ls as [|[now line] ls IH]; intros m s Hwf Hcur Hst Ha Hsz.
  - exists m, s. cbn. auto.
  - pose proof (Forall_inv Ha) as Ha1. apply Forall_inv_tail in Ha.
    cbn [run_adds spec_adds fold_left snd]. fold (spec_adds cfg ls).
    rewrite all_cost_cons in Hsz. unfold add_cost in Hsz. cbn [snd] in Hsz.
    destruct (ignored cfg line) eqn:Ei.
    + rewrite db_add_ignored by auto. apply IH; auto. lia.
    + destruct Ha1 as [Ha1|[Hp Hl]]; [cbn in Ha1; congruence|]. cbn [snd] in *.
      destruct (db_add_ok cfg now line m s Hwf Hcur) as (m' & s' & E & W & C & M & Ht & L & N'); auto.
      * split; [exact Hp|]. split; [exact Hl|]. split; [intro; specialize (Hst H); lia|].
        destruct (stamp_line_props now) as (_ & _ & _ & _ & S5).
        unfold active_len, active_file in Hsz.
        destruct (s_lines s); rewrite add_to_file_length; destruct (c_stamp cfg); lia.
      * rewrite E. rewrite <- Ht. apply IH; auto. lia.
Qed.

(** *** Ids *)

Lemma line_id_val bank o : (N.of_nat o < max_off)%N -> (bank < 4)%N ->
  line_id bank o = (N.of_nat o + bank * two29 + two31)%N.
Proof.
  unfold max_off. intros H Hb. unfold line_id, too_big, c_max_offset.
  destruct (N.leb_spec 536870911 (N.of_nat o)); [lia|]. unfold pack, two29, two31.
  rewrite (N.mod_small (N.of_nat o)) by lia. rewrite (N.mod_small bank) by lia. reflexivity.
Qed.

Lemma id_parts bank o : (N.of_nat o < max_off)%N -> (bank < 2)%N ->
  id_bank (line_id bank o) = bank /\ id_offset (line_id bank o) = N.of_nat o /\ line_id bank o <> 0%N.
Proof.
  intros H Hb. rewrite line_id_val by (auto; lia). unfold id_bank, id_offset, two29, two31, max_off in *.
  assert (bank = 0 \/ bank = 1)%N as [->| ->] by lia.
  - split; [|split]; [|rewrite <- (N.mod_small (N.of_nat o) 536870912) at 2 by lia|lia]; lia.
  - split; [|split]; [|rewrite <- (N.mod_small (N.of_nat o) 536870912) at 2 by lia|lia]; lia.
Qed.

Definition ids (bank : N) (os : list nat) : list N := map (line_id bank) os.

Inductive asc_N : list N -> Prop :=
| ascN_nil : asc_N []
| ascN_cons x l : (forall y, In y l -> (x < y)%N) -> asc_N l -> asc_N (x :: l).

Lemma lower_bound_nth l : asc_N l -> forall i x, nth_error l i = Some x -> lower_bound l x = i.
Proof.
  induction 1 as [|y l Hlt Ha IH]; intros i x Hi; [destruct i; discriminate|].
  cbn [lower_bound]. destruct i as [|i]; cbn in Hi.
  - injection Hi as ->. destruct (N.ltb_spec x x); [lia|reflexivity].
  - pose proof (nth_error_In _ _ Hi) as Hin. apply Hlt in Hin.
    destruct (N.ltb_spec y x); [|lia]. f_equal. auto.
Qed.

Lemma asc_ids bank V : (bank < 4)%N -> Forall (fun e => (N.of_nat (v_off e) < max_off)%N) V ->
  ascending (map off_text V) -> asc_N (ids bank (map v_off V)).
Proof.
  intros Hb. induction V as [|e V IH]; intros Hf Ha; [constructor|].
  pose proof (Forall_inv Hf). apply Forall_inv_tail in Hf.
  cbn [map] in Ha. inversion Ha as [|l ls Hlt Ha']. subst l ls.
  cbn [map ids]. constructor; [|apply IH; auto].
  intros y Hy. unfold ids in Hy. rewrite map_map in Hy. apply in_map_iff in Hy as (e' & <- & He').
  rewrite !line_id_val by (auto; rewrite Forall_forall in Hf; auto).
  specialize (Hlt (off_text e')). cbn [off_text fst] in Hlt.
  assert (v_off e < v_off e') by (apply Hlt; apply in_map; auto). lia.
Qed.

Lemma remove_at_app_l {A} i (l1 l2 : list A) : i < length l1 -> remove_at i (l1 ++ l2) = remove_at i l1 ++ l2.
Proof.
  intro H. unfold remove_at. rewrite firstn_app, skipn_app.
  replace (i - length l1) with 0 by lia. replace (S i - length l1) with 0 by lia.
  cbn [firstn skipn]. rewrite app_nil_r, <- app_assoc. reflexivity.
Qed.

Lemma remove_at_app_r {A} i (l1 l2 : list A) : remove_at (length l1 + i) (l1 ++ l2) = l1 ++ remove_at i l2.
Proof.
  unfold remove_at. rewrite firstn_app_2. replace (S (length l1 + i)) with (length l1 + S i) by lia.
  rewrite <- app_assoc. f_equal. f_equal. rewrite skipn_app. rewrite skipn_all2 by lia.
  cbn [app]. f_equal. lia.
Qed.

Lemma remove_at_map {A B} (g : A -> B) i l : remove_at i (map g l) = map g (remove_at i l).
Proof. unfold remove_at. rewrite map_app, firstn_map, skipn_map. reflexivity. Qed.

Lemma remove_at_length {A} i (l : list A) : i < length l -> length (remove_at i l) = length l - 1.
Proof. intro H. unfold remove_at. rewrite app_length, firstn_length, skipn_length. lia. Qed.

Lemma filter_remove_at V : forall i e, NoDup (map v_off V) -> nth_error V i = Some e ->
  filter (fun x => negb (Nat.eqb (v_off x) (v_off e))) V = remove_at i V.
Proof.
  induction V as [|x V IH]; intros i e Hnd Hi; [destruct i; discriminate|].
  cbn [map] in Hnd. apply NoDup_cons_iff in Hnd as [Hn Hnd].
  destruct i as [|i]; cbn in Hi.
  - injection Hi as ->. cbn [filter]. rewrite Nat.eqb_refl. cbn [negb]. unfold remove_at. cbn [firstn skipn app].
    rewrite (filter_ext_in' _ (fun _ => true)).
    + apply filter_all. reflexivity.
    + intros y Hy. apply negb_true_iff, Nat.eqb_neq. intro E. apply Hn. rewrite <- E. apply in_map; auto.
  - cbn [filter]. destruct (Nat.eqb_spec (v_off x) (v_off e)) as [E|_].
    + exfalso. apply Hn. rewrite E. apply in_map. eapply nth_error_In; eauto.
    + cbn [negb]. rewrite (IH i e Hnd Hi). reflexivity.
Qed.

(** *** The index map mirrors the view *)

Definition tag_of (m : bytes) : bytes := tag_or_empty (extract_ctag max_ctag_size m).

Definition loaded (m : bytes) (s : sess) : Prop :=
  s_map s = ids bank_master (map v_off (fst (sview m s))) ++ ids bank_session (map v_off (snd (sview m s))) /\
  s_mlen s = length (fst (sview m s)) /\ s_ctag s = tag_of m.

Lemma view_session_in l e : In e (view_session l) -> exists f, l = Some f /\ In (v_off e, v_text e) (lines_of f) /\
  bar_line (v_text e) = false.
Proof.
  destruct l as [f|]; [|intros []]. cbn. intro H. apply visible_from_in in H as (A & B & _). eauto.
Qed.

Lemma session_offs_bound l e : wf_bank (length G) l -> In e (view_session l) -> (N.of_nat (v_off e) < max_off)%N.
Proof.
  intros Hl He. apply view_session_in in He as (f & -> & Hin & _). destruct Hl as (_ & _ & Hs).
  apply lines_of_bounds in Hin. lia.
Qed.

Lemma tag_of_tagged tag rest : good_tag tag -> tag_of (tag ++ LF :: rest) = tag.
Proof. intro Hg. unfold tag_of. rewrite extract_ctag_ok; [reflexivity|auto|unfold max_ctag_size; lia]. Qed.

Lemma tag_ok_cur m s : wf_master (length G) m -> s_ctag s = tag_of m -> tag_ok m (s_ctag s) = true.
Proof.
  intros (_ & tag & rest & -> & Hg) E. rewrite E, tag_of_tagged by auto.
  unfold tag_ok. rewrite extract_ctag_ok by (auto; unfold max_ctag_size; lia). apply eqb_bytes_refl.
Qed.

Lemma asc_view_master m r : ascending (map off_text (view_master m r)).
Proof. apply visible_from_ascending. apply lines_of_ascending. Qed.

Lemma asc_view_session l : ascending (map off_text (view_session l)).
Proof. destruct l; [apply visible_from_ascending; apply lines_of_ascending|constructor]. Qed.

Lemma nodup_view_master m r : NoDup (map v_off (view_master m r)).
Proof. apply visible_offs_nodup. Qed.

Lemma nodup_view_session l : NoDup (map v_off (view_session l)).
Proof. destruct l; [apply visible_offs_nodup|constructor]. Qed.

(** Effect of write_lock::remove on a displayed master entry. *)
Lemma lock_remove_master m s e : wf m s -> rem_current m (s_rem s) -> In e (fst (sview m s)) ->
  (s_rem s = None -> fakes_time (v_text e) = false) ->
  exists m' s', lock_remove (line_id bank_master (v_off e)) m s = Some (m', s') /\
    wf m' s' /\ rem_current m' (s_rem s') /\ same_mem s s' /\ s_lines s' = s_lines s /\
    map off_text (fst (sview m' s')) =
      map off_text (filter (fun x => negb (Nat.eqb (v_off x) (v_off e))) (fst (sview m s))) /\
    (s_rem s = None -> fst (sview m' s') = filter (fun x => negb (Nat.eqb (v_off x) (v_off e))) (fst (sview m s))) /\
    tag_of m' = tag_of m /\ length m' = length m.
Proof.
  intros (Hm & Hl & Hr & Hn) Hcur He Hfk. cbn [sview fst] in He.
  assert (Hbd : (N.of_nat (v_off e) < max_off)%N) by (eapply view_offs_bound; [apply Hm|exact He]).
  destruct (id_parts bank_master (v_off e) Hbd) as (I1 & I2 & I3); [reflexivity|].
  unfold lock_remove. rewrite I1, I2. change (N.eqb bank_master bank_master) with true.
  destruct (N.eqb_spec (N.of_nat (v_off e)) c_max_offset) as [E|_]; [unfold c_max_offset, max_off in *; lia|].
  rewrite Nat2N.id. destruct (s_rem s) as [r|] eqn:Er.
  - destruct Hcur as (tag & rest & os & Em & Hg & -> & Hos).
    exists m, (set_rem s (Some (rem_file (Some tag) (os ++ [v_off e])))).
    rewrite <- defer_rem_file. cbn [fold_left]. split; [reflexivity|].
    change (wl_defer (rem_file (Some tag) os) (v_off e)) with (fold_left wl_defer [v_off e] (rem_file (Some tag) os)).
    rewrite defer_rem_file.
    assert (Hos2 : Forall (fun o => (N.of_nat o < max_off)%N) (os ++ [v_off e])).
    { apply Forall_app. split; auto. }
    split; [|split; [|split; [|split; [|split; [|split; [discriminate|split; reflexivity]]]]]].
    + split; [exact Hm|]. split; [exact Hl|]. split.
      * exists (Some tag), (os ++ [v_off e]). split; [reflexivity|]. split; [|exact Hos2].
        intros t E. injection E as <-. exact Hg.
      * cbn. intro E. specialize (Hn E). discriminate.
    + exists tag, rest, (os ++ [v_off e]). auto.
    + unfold same_mem, set_rem. cbn. auto.
    + reflexivity.
    + cbn [sview fst set_rem s_rem]. rewrite Er. unfold view_master, visible.
      rewrite (visible_from_ext (spec_removed m (Some (rem_file (Some tag) (os ++ [v_off e]))))
                 (fun o => spec_removed m (Some (rem_file (Some tag) os)) o || Nat.eqb o (v_off e))).
      * rewrite (more_removed _ (fun o => Nat.eqb o (v_off e)) _ None None). rewrite filter_map. reflexivity.
      * intros o t Hin. rewrite Em, !spec_removed_tagged by auto. rewrite eqb_bytes_refl, mem_nat_app.
        cbn. rewrite orb_false_r. reflexivity.
  - exists (wl_mark m (v_off e)), s. split; [reflexivity|].
    apply visible_from_in in He as (Hin & Hb & _). specialize (Hfk eq_refl).
    assert (Hmk : Forall (markable none_removed m) [v_off e]).
    { constructor; [|constructor]. exists (v_text e). auto. }
    assert (Hv : view_master (wl_mark m (v_off e)) None =
                 filter (fun x => negb (Nat.eqb (v_off x) (v_off e))) (view_master m None)).
    { unfold view_master. apply (visible_mark none_removed m (v_off e) (v_text e)); auto. }
    assert (Hm' : wf_master (length G) (wl_mark m (v_off e))).
    { apply (wf_master_marks none_removed m [v_off e]); auto. constructor; [auto|constructor]. }
    split; [|split; [|split; [|split; [|split; [|split; [|split]]]]]].
    + split; [exact Hm'|]. split; [exact Hl|]. rewrite Er. auto.
    + rewrite Er. exact I.
    + unfold same_mem. auto.
    + reflexivity.
    + cbn [sview fst]. rewrite Er, Hv. reflexivity.
    + intros _. cbn [sview fst]. rewrite Er. exact Hv.
    + destruct Hm as (_ & tag & rest & Em & Hg).
      destruct (marks_tag_of none_removed m [v_off e] tag rest Em Hg Hmk) as [rest' E]. cbn [fold_left] in E.
      rewrite E, Em, !tag_of_tagged by auto. reflexivity.
    + apply mark_length. apply lines_of_bounds in Hin. lia.
Qed.

Lemma lock_remove_session m s e : wf m s -> In e (snd (sview m s)) -> fakes_time (v_text e) = false ->
  exists s', lock_remove (line_id bank_session (v_off e)) m s = Some (m, s') /\
    wf m s' /\ s_rem s' = s_rem s /\ same_mem s s' /\
    option_map (@length _) (s_lines s') = option_map (@length _) (s_lines s) /\
    snd (sview m s') = filter (fun x => negb (Nat.eqb (v_off x) (v_off e))) (snd (sview m s)).
Proof.
  intros (Hm & Hl & Hr & Hn) He Hfk. cbn [sview snd] in He.
  assert (Hbd : (N.of_nat (v_off e) < max_off)%N) by (eapply session_offs_bound; eauto).
  destruct (id_parts bank_session (v_off e) Hbd) as (I1 & I2 & I3); [reflexivity|].
  unfold lock_remove. rewrite I1, I2. change (N.eqb bank_session bank_master) with false.
  change (N.eqb bank_session bank_session) with true.
  destruct (N.eqb_spec (N.of_nat (v_off e)) c_max_offset) as [E|_]; [unfold c_max_offset, max_off in *; lia|].
  rewrite Nat2N.id. apply view_session_in in He as (f & Ef & Hin & Hb). rewrite Ef.
  exists (set_lines s (Some (wl_mark f (v_off e)))). split; [reflexivity|]. rewrite Ef in Hl.
  assert (Hmk : Forall (markable none_removed f) [v_off e]).
  { constructor; [|constructor]. exists (v_text e). auto. }
  split; [|split; [|split; [|split]]].
  - split; [exact Hm|]. split; [|split; [exact Hr|discriminate]]. cbn [set_lines s_lines wf_bank].
    eapply (fits_lines_map (length G) f (wl_mark f (v_off e)) (fun l => mem_nat (fst l) [v_off e])); auto.
    + eapply mark_terminated; eauto. apply Hl.
    + apply mark_length. apply lines_of_bounds in Hin. lia.
    + apply (marks_lines [v_off e] none_removed f); auto. constructor; [auto|constructor].
  - reflexivity.
  - unfold same_mem, set_lines. cbn. auto.
  - cbn. f_equal. apply mark_length. apply lines_of_bounds in Hin. lia.
  - cbn [sview snd set_lines s_lines]. rewrite Ef. cbn [view_session].
    apply (visible_mark none_removed f (v_off e) (v_text e)); auto.
Qed.

(** C03: remove(id) for a displayed entry *)

Lemma map_v_off V V' : map off_text V = map off_text V' -> map v_off V = map v_off V'.
Proof. intro H. apply (f_equal (map fst)) in H. rewrite !map_map in H. exact H. Qed.

Lemma wf_same m s s' : s_lines s' = s_lines s -> s_rem s' = s_rem s -> wf m s -> wf m s'.
Proof. intros E1 E2. unfold wf. rewrite E1, E2. auto. Qed.

Lemma nth_error_map' {A B} (g : A -> B) l i : nth_error (map g l) i = option_map g (nth_error l i).
Proof. revert i; induction l as [|x l IH]; intros [|i]; cbn; auto. Qed.

Lemma view_master_bound m s : wf m s -> Forall (fun e => (N.of_nat (v_off e) < max_off)%N) (fst (sview m s)).
Proof.
  intros (Hm & _). apply Forall_forall. intros x Hx. eapply view_offs_bound; [apply Hm|exact Hx].
Qed.

Lemma view_session_bound m s : wf m s -> Forall (fun e => (N.of_nat (v_off e) < max_off)%N) (snd (sview m s)).
Proof.
  intros (_ & Hl & _). apply Forall_forall. intros x Hx. eapply session_offs_bound; eauto.
Qed.

Lemma map_remove_master m s i e : wf m s -> loaded m s -> nth_error (fst (sview m s)) i = Some e ->
  forall s1, same_mem s s1 ->
  map_remove (line_id bank_master (v_off e)) s1 =
  mkSess (s_lines s1) (s_rem s1) (s_ctag s1)
    (ids bank_master (map v_off (remove_at i (fst (sview m s)))) ++ ids bank_session (map v_off (snd (sview m s))))
    (s_mlen s - 1) (S (s_mdel s)).
Proof.
  intros Hwf (L1 & L2 & L3) Hi s1 (M1 & M2 & M3 & M4).
  pose proof (view_master_bound m s Hwf) as Hb. pose proof Hb as Hb'. rewrite Forall_forall in Hb'.
  destruct (id_parts bank_master (v_off e)) as (I1 & I2 & I3); [apply Hb'; eapply nth_error_In; eauto|reflexivity|].
  unfold map_remove. rewrite I1. change (N.eqb bank_master bank_master) with true.
  rewrite M2, M3, L1, L2.
  set (A := ids bank_master (map v_off (fst (sview m s)))). set (B := ids bank_session (map v_off (snd (sview m s)))).
  assert (HA : length A = length (fst (sview m s))) by (unfold A, ids; rewrite !map_length; reflexivity).
  rewrite <- HA. rewrite firstn_app_exact by reflexivity.
  assert (Hn : nth_error A i = Some (line_id bank_master (v_off e))).
  { unfold A, ids. rewrite map_map, nth_error_map', Hi. reflexivity. }
  rewrite (lower_bound_nth A) with (i := i); auto.
  - rewrite Hn, N.eqb_refl. rewrite M4. f_equal.
    rewrite remove_at_app_l by (apply nth_error_Some; congruence). f_equal.
    unfold A, ids. rewrite !map_map, remove_at_map. reflexivity.
  - unfold A. apply asc_ids; auto. { reflexivity. } apply asc_view_master.
Qed.

Lemma map_remove_session m s i e : wf m s -> loaded m s -> nth_error (snd (sview m s)) i = Some e ->
  forall s1, same_mem s s1 ->
  map_remove (line_id bank_session (v_off e)) s1 =
  mkSess (s_lines s1) (s_rem s1) (s_ctag s1)
    (ids bank_master (map v_off (fst (sview m s))) ++ ids bank_session (map v_off (remove_at i (snd (sview m s)))))
    (s_mlen s) (s_mdel s).
Proof.
  intros Hwf (L1 & L2 & L3) Hi s1 (M1 & M2 & M3 & M4).
  pose proof (view_session_bound m s Hwf) as Hb. pose proof Hb as Hb'. rewrite Forall_forall in Hb'.
  destruct (id_parts bank_session (v_off e)) as (I1 & I2 & I3); [apply Hb'; eapply nth_error_In; eauto|reflexivity|].
  unfold map_remove. rewrite I1. change (N.eqb bank_session bank_master) with false.
  rewrite M2, M3, L1, L2.
  set (A := ids bank_master (map v_off (fst (sview m s)))). set (B := ids bank_session (map v_off (snd (sview m s)))).
  assert (HA : length A = length (fst (sview m s))) by (unfold A, ids; rewrite !map_length; reflexivity).
  rewrite <- HA. rewrite skipn_app_exact by reflexivity.
  assert (Hn : nth_error B i = Some (line_id bank_session (v_off e))).
  { unfold B, ids. rewrite map_map, nth_error_map', Hi. reflexivity. }
  rewrite (lower_bound_nth B) with (i := i); auto.
  - rewrite nth_error_app2 by lia. replace (length A + i - length A) with i by lia.
    rewrite Hn, N.eqb_refl. rewrite M4. f_equal.
    rewrite remove_at_app_r. f_equal.
    unfold B, ids. rewrite !map_map, remove_at_map. reflexivity.
  - unfold B. apply asc_ids; auto. { reflexivity. } apply asc_view_session.
Qed.

(** Texts that may be removed by marking. *)
Definition no_fakes (m : bytes) (s : sess) : Prop := Forall (fun t => fakes_time t = false) (stexts m s).

Lemma in_fst_texts m s e : In e (fst (sview m s)) -> In (v_text e) (stexts m s).
Proof. intro H. apply in_or_app. left. apply in_map. exact H. Qed.
Lemma in_snd_texts m s e : In e (snd (sview m s)) -> In (v_text e) (stexts m s).
Proof. intro H. apply in_or_app. right. apply in_map. exact H. Qed.

Lemma remove_at_in {A} i (l : list A) x : In x (remove_at i l) -> In x l.
Proof.
  unfold remove_at. intro H. apply in_app_or in H as [H|H].
  - rewrite <- (firstn_skipn i l). apply in_or_app. auto.
  - rewrite <- (firstn_skipn (S i) l). apply in_or_app. auto.
Qed.

(** The list of displayed (offset, text) pairs: master entries, then session entries. *)
Definition shown (m : bytes) (s : sess) : list (nat * bytes) * list (nat * bytes) :=
  (map off_text (fst (sview m s)), map off_text (snd (sview m s))).

Lemma stexts_shown m s : stexts m s = map snd (fst (shown m s)) ++ map snd (snd (shown m s)).
Proof. unfold stexts, texts, shown. cbn [fst snd sview]. rewrite !map_map. reflexivity. Qed.

Lemma db_remove_index_ok i m s : wf m s -> rem_current m (s_rem s) -> loaded m s -> no_fakes m s ->
  i < length (s_map s) ->
  exists m' s', db_remove_index i m s = (m', s', true) /\
    wf m' s' /\ rem_current m' (s_rem s') /\ loaded m' s' /\ no_fakes m' s' /\
    (i < length (fst (shown m s)) ->
       fst (shown m' s') = remove_at i (fst (shown m s)) /\ snd (sview m' s') = snd (sview m s) /\
       (s_rem s = None -> fst (sview m' s') = remove_at i (fst (sview m s)))) /\
    (length (fst (shown m s)) <= i ->
       fst (sview m' s') = fst (sview m s) /\
       snd (sview m' s') = remove_at (i - length (fst (shown m s))) (snd (sview m s))) /\
    stexts m' s' = remove_at i (stexts m s).
Proof.
  intros Hwf Hcur Hld Hnf Hi. pose proof Hld as (L1 & L2 & L3). unfold no_fakes in Hnf.
  assert (Hlen : length (s_map s) = length (fst (sview m s)) + length (snd (sview m s))).
  { rewrite L1, app_length. unfold ids. rewrite !map_length. reflexivity. }
  assert (HlA : length (ids bank_master (map v_off (fst (sview m s)))) = length (fst (sview m s)))
    by (unfold ids; rewrite !map_length; reflexivity).
  unfold db_remove_index.
  assert (Hnfi : forall m' s', stexts m' s' = remove_at i (stexts m s) -> no_fakes m' s').
  { intros m' s' E. unfold no_fakes. rewrite E. apply Forall_forall. intros t Ht. apply remove_at_in in Ht.
    rewrite Forall_forall in Hnf. auto. }
  assert (Hsh : length (fst (shown m s)) = length (fst (sview m s))) by (unfold shown; cbn [fst]; rewrite map_length; reflexivity).
  rewrite Hsh. rewrite Forall_forall in Hnf.
  destruct (Nat.lt_ge_cases i (length (fst (sview m s)))) as [Hlt|Hge].
  - destruct (nth_error (fst (sview m s)) i) as [e|] eqn:He; [|apply nth_error_None in He; lia].
    assert (Hin : In e (fst (sview m s))) by (eapply nth_error_In; eauto).
    rewrite L1, nth_error_app1 by lia.
    unfold ids at 1. rewrite map_map, nth_error_map', He. cbn [option_map].
    destruct (id_parts bank_master (v_off e)) as (I1 & I2 & I3).
    { pose proof (view_master_bound m s Hwf) as Hb. rewrite Forall_forall in Hb. auto. } { reflexivity. }
    unfold db_remove. apply N.eqb_neq in I3. rewrite I3, I1. change (N.eqb bank_master bank_master) with true.
    rewrite tag_ok_cur by (auto; apply Hwf). cbn [negb andb].
    destruct (lock_remove_master m s e Hwf Hcur Hin) as (m1 & s1 & E & W & C & M & Ll & V & V2 & Tg & Ln).
    { intros _. apply Hnf. apply in_fst_texts; auto. }
    rewrite E. rewrite (map_remove_master m s i e Hwf Hld He s1 M).
    rewrite filter_remove_at with (i := i) in V, V2; auto; try apply nodup_view_master.
    eexists m1, _. split; [reflexivity|].
    match goal with |- wf _ ?x /\ _ => set (s2 := x) end.
    assert (HV1 : fst (sview m1 s2) = fst (sview m1 s1)) by reflexivity.
    assert (HV2 : snd (sview m1 s2) = snd (sview m s)).
    { unfold s2. cbn [sview snd s_lines]. rewrite Ll. reflexivity. }
    assert (Htx : stexts m1 s2 = remove_at i (stexts m s)).
    { rewrite !stexts_shown. unfold shown. rewrite HV2, HV1. cbn [fst snd]. rewrite V.
      rewrite <- !remove_at_map. rewrite !map_map. rewrite remove_at_app_l by (rewrite map_length; exact Hlt). reflexivity. }
    split; [|split; [|split; [|split; [|split; [|split]]]]].
    + apply (wf_same m1 s1); auto.
    + exact C.
    + unfold loaded. rewrite HV2, HV1. split; [|split].
      * unfold s2. cbn [s_map]. f_equal. f_equal. apply map_v_off. symmetry. exact V.
      * unfold s2. cbn [s_mlen]. rewrite L2. apply (f_equal (@length _)) in V. rewrite !map_length in V.
        rewrite V. symmetry. apply remove_at_length. exact Hlt.
      * unfold s2. cbn [s_ctag]. destruct M as (M1 & _). rewrite M1, L3, Tg. reflexivity.
    + apply Hnfi; auto.
    + intros _. split; [|split].
      * unfold shown. cbn [fst]. rewrite HV1, V, remove_at_map. reflexivity.
      * exact HV2.
      * intro Hn. rewrite HV1. apply V2. exact Hn.
    + lia.
    + exact Htx.
  - set (j := i - length (fst (sview m s))).
    destruct (nth_error (snd (sview m s)) j) as [e|] eqn:He; [|apply nth_error_None in He; unfold j in He; lia].
    assert (Hin : In e (snd (sview m s))) by (eapply nth_error_In; eauto).
    rewrite L1, nth_error_app2 by lia. rewrite HlA. fold j.
    unfold ids at 1. rewrite map_map, nth_error_map', He. cbn [option_map].
    destruct (id_parts bank_session (v_off e)) as (I1 & I2 & I3).
    { pose proof (view_session_bound m s Hwf) as Hb. rewrite Forall_forall in Hb. auto. } { reflexivity. }
    unfold db_remove. apply N.eqb_neq in I3. rewrite I3, I1. change (N.eqb bank_session bank_master) with false.
    cbn [negb andb].
    destruct (lock_remove_session m s e Hwf Hin) as (s1 & E & W & R & M & Ll & V).
    { apply Hnf. apply in_snd_texts; auto. }
    rewrite E. rewrite (map_remove_session m s j e Hwf Hld He s1 M).
    rewrite filter_remove_at with (i := j) in V; auto; try apply nodup_view_session.
    eexists m, _. split; [reflexivity|].
    match goal with |- wf _ ?x /\ _ => set (s2 := x) end.
    assert (HV1 : fst (sview m s2) = fst (sview m s)).
    { unfold s2. cbn [sview fst s_rem]. rewrite R. reflexivity. }
    assert (HV2 : snd (sview m s2) = snd (sview m s1)) by reflexivity.
    assert (Htx : stexts m s2 = remove_at i (stexts m s)).
    { rewrite !stexts_shown. unfold shown. rewrite HV2, HV1. cbn [fst snd]. rewrite V.
      rewrite <- !remove_at_map. rewrite !map_map.
      replace i with (length (map (fun x => snd (off_text x)) (fst (sview m s))) + j).
      - rewrite remove_at_app_r. reflexivity.
      - rewrite map_length. unfold j. lia. }
    split; [|split; [|split; [|split; [|split; [|split]]]]].
    + apply (wf_same m s1); auto.
    + unfold s2. cbn [s_rem]. rewrite R. exact Hcur.
    + unfold loaded. rewrite HV2, HV1, V. split; [|split].
      * reflexivity.
      * unfold s2. cbn [s_mlen]. exact L2.
      * unfold s2. cbn [s_ctag]. destruct M as (M1 & _). rewrite M1. exact L3.
    + apply Hnfi; auto.
    + lia.
    + intros _. split; [exact HV1|]. rewrite HV2. exact V.
    + exact Htx.
Qed.

(** C16: any sequence of removals by index *)
Fixpoint run_removes (is : list nat) (m : bytes) (s : sess) : bytes * sess :=
  match is with
  | [] => (m, s)
  | i :: is' => let '(m', s', _) := db_remove_index i m s in run_removes is' m' s'
  end.

Lemma loaded_len m s : loaded m s -> length (s_map s) = length (stexts m s).
Proof.
  intros (L1 & _). rewrite L1, app_length. unfold ids, stexts, texts. rewrite app_length, !map_length. reflexivity.
Qed.

Lemma remove_at_big {A} i (l : list A) : length l <= i -> remove_at i l = l.
Proof. intro H. unfold remove_at. rewrite firstn_all2, skipn_all2 by lia. apply app_nil_r. Qed.

Lemma run_removes_ok is : forall m s, wf m s -> rem_current m (s_rem s) -> loaded m s -> no_fakes m s ->
  let '(m', s') := run_removes is m s in
  wf m' s' /\ rem_current m' (s_rem s') /\ loaded m' s' /\
  stexts m' s' = fold_left (fun l i => remove_at i l) is (stexts m s).
Proof.
  induction is as [|i is IH]; intros m s Hwf Hcur Hld Hnf; cbn [run_removes fold_left]; [auto|].
  destruct (Nat.lt_ge_cases i (length (s_map s))) as [Hlt|Hge].
  - destruct (db_remove_index_ok i m s Hwf Hcur Hld Hnf Hlt) as (m' & s' & E & W & C & L & N' & _ & _ & Tx).
    rewrite E. specialize (IH m' s' W C L N'). rewrite Tx in IH. exact IH.
  - unfold db_remove_index. rewrite (proj2 (nth_error_None _ _)) by auto.
    rewrite remove_at_big by (rewrite <- loaded_len; auto). apply IH; auto.
Qed.

(** *** load *)

Lemma map_e_off es : map (fun e => line_id bank_master (e_off e)) es = ids bank_master (map v_off (map to_v es)).
Proof. unfold ids. rewrite !map_map. reflexivity. Qed.
Lemma map_e_off2 es : map (fun e => line_id bank_session (e_off e)) es = ids bank_session (map v_off (map to_v es)).
Proof. unfold ids. rewrite !map_map. reflexivity. Qed.

Lemma load_buffer_len : length (load_buffer G) = length G - 1.
Proof. unfold load_buffer. rewrite firstn_length. lia. Qed.

Lemma head_ok_tagged tag rest : good_tag tag -> head_ok (tag ++ LF :: rest).
Proof. intro Hg. unfold head_ok. rewrite lines_tagged by auto. intros _. apply Hg. Qed.

Lemma load_internal_ok m s : wf m s ->
  exists s', load_internal G T m s = Some (s', stexts m s) /\
    wf m s' /\ s_rem s' = s_rem s /\ s_lines s' = s_lines s /\ loaded m s' /\
    s_mdel s' = deleted_count (removed_in (removals_seen T m (s_rem s))) m.
Proof.
  intros (Hm & Hl & Hr & Hn). unfold load_internal.
  destruct (read_bank_ok (load_buffer G) (removals_seen T m (s_rem s)) m) as (es & d & E & Hes & Hd).
  { apply Hm. } { rewrite load_buffer_len. apply Hm. } { rewrite load_buffer_len. lia. }
  rewrite (visible_seen T (length G)) in Hes by auto.
  rewrite E.
  assert (H2 : exists es2 d2, (match s_lines s with None => Some ([], 0) | Some l => read_bank (load_buffer G) [] l end)
    = Some (es2, d2) /\ map to_v es2 = view_session (s_lines s)).
  { destruct (s_lines s) as [l|]; [|exists [], 0; auto].
    destruct (read_bank_ok (load_buffer G) [] l) as (es2 & d2 & E2 & Hes2 & _).
    { apply Hl. } { rewrite load_buffer_len. apply Hl. } { rewrite load_buffer_len. lia. }
    exists es2, d2. split; [exact E2|]. rewrite Hes2. symmetry. apply view_session_eq. }
  destruct H2 as (es2 & d2 & -> & Hes2).
  eexists. split; [|split; [|split; [|split; [|split]]]].
  - unfold stexts, texts. rewrite <- Hes, <- Hes2, !map_map. reflexivity.
  - apply (wf_same m s); auto. split; auto.
  - reflexivity.
  - reflexivity.
  - unfold loaded. cbn [s_map s_mlen s_ctag sview fst snd s_rem s_lines].
    rewrite <- Hes, <- Hes2. split; [|split].
    + rewrite map_e_off, map_e_off2. reflexivity.
    + rewrite map_length. reflexivity.
    + reflexivity.
  - cbn [s_mdel]. apply Hd. destruct Hm as (_ & tag & rest & -> & Hg). apply head_ok_tagged; auto.
Qed.

(** C15: the pruning loop *)
Lemma prune_ok fuel limit : forall m s, wf m s -> rem_current m (s_rem s) -> loaded m s -> no_fakes m s ->
  s_mlen s - limit < fuel ->
  let '(m', s') := prune fuel limit m s in
  wf m' s' /\ rem_current m' (s_rem s') /\ loaded m' s' /\ no_fakes m' s' /\
  fst (shown m' s') = skipn (length (fst (shown m s)) - limit) (fst (shown m s)) /\
  snd (sview m' s') = snd (sview m s).
Proof.
  induction fuel as [|k IH]; intros m s Hwf Hcur Hld Hnf Hf; [lia|].
  cbn [prune]. pose proof Hld as (L1 & L2 & L3).
  assert (Hsh : length (fst (shown m s)) = s_mlen s) by (unfold shown; cbn [fst]; rewrite map_length; auto).
  destruct (Nat.ltb_spec limit (s_mlen s)) as [Hlt|Hge].
  - destruct (s_map s) as [|id ids'] eqn:Em.
    { exfalso. assert (length (fst (sview m s)) = 0).
      { apply (f_equal (@length _)) in L1. rewrite app_length in L1. unfold ids in L1. rewrite !map_length in L1.
        change (length (@nil N)) with 0 in L1. lia. }
      lia. }
    assert (Hid : nth_error (fst (sview m s)) 0 <> None) by (apply nth_error_Some; lia).
    destruct (nth_error (fst (sview m s)) 0) as [e|] eqn:He; [|congruence].
    assert (Hide : id = line_id bank_master (v_off e)).
    { assert (Hx : nth_error (s_map s) 0 = Some id) by (rewrite Em; reflexivity).
      rewrite Em, L1, nth_error_app1 in Hx by (unfold ids; rewrite !map_length; lia).
      unfold ids in Hx. rewrite map_map, nth_error_map', He in Hx. cbn in Hx. congruence. }
    assert (Hb : N.eqb (id_bank id) bank_master = true).
    { subst id. destruct (id_parts bank_master (v_off e)) as (I1 & _).
      - pose proof (view_master_bound m s Hwf) as Hb. rewrite Forall_forall in Hb. apply Hb. eapply nth_error_In; eauto.
      - reflexivity.
      - rewrite I1. reflexivity. }
    rewrite Hb.
    destruct (db_remove_index_ok 0 m s Hwf Hcur Hld Hnf) as (m' & s' & E & W & C & L & N' & Hm & _ & _).
    { rewrite Em. cbn. lia. }
    unfold db_remove_index in E. rewrite Em in E. cbn [nth_error] in E. rewrite E.
    destruct Hm as (Hm1 & Hm2 & _); [lia|].
    assert (Hml : s_mlen s' = s_mlen s - 1).
    { destruct L as (_ & L2' & _). rewrite L2'. apply (f_equal (@length _)) in Hm1.
      unfold shown in Hm1. cbn [fst] in Hm1. rewrite remove_at_length in Hm1 by (rewrite map_length; lia).
      rewrite !map_length in Hm1. lia. }
    specialize (IH m' s' W C L N' ltac:(lia)).
    destruct (prune k limit m' s') as [m2 s2]. destruct IH as (A & B & D & F & H1 & H2).
    split; [exact A|]. split; [exact B|]. split; [exact D|]. split; [exact F|]. split; [|congruence].
    rewrite H1, Hm1. rewrite remove_at_length by lia. rewrite Hsh.
    unfold remove_at. cbn [firstn app]. rewrite <- skipn_add. f_equal. lia.
  - replace (length (fst (shown m s)) - limit) with 0 by lia. cbn [skipn].
    split; [exact Hwf|]. split; [exact Hcur|]. split; [exact Hld|]. split; [exact Hnf|]. auto.
Qed.

End Session.
