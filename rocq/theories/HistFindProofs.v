(** find, remove by text, and add on one history file. *)
From Verif Require Import Base HistFileModel HistSpec HistFileProofs HistLines.

Lemma raw_lines_text o cur f l : no_brk cur = true -> In l (raw_lines o cur f) ->
  no_brk (snd l) = true /\ snd l <> [].
Proof.
  revert o cur; induction f as [|c f IH]; intros o cur Hc Hin; cbn [raw_lines] in Hin; [destruct Hin|].
  destruct (brk c) eqn:Hb.
  - destruct cur as [|x cur]; [apply IH in Hin; auto|].
    destruct Hin as [<-|Hin]; [split; [auto|discriminate]|apply IH in Hin; auto].
  - apply IH in Hin; auto. unfold no_brk. rewrite forallb_app. apply andb_true_iff. split; auto.
    cbn. rewrite Hb. reflexivity.
Qed.

Lemma lines_of_text f o t : In (o, t) (lines_of f) -> no_brk t = true /\ t <> [].
Proof. intro H. apply raw_lines_text in H; auto. Qed.

Lemma strncmp_full a b : no_brk b = true -> strncmp_eq a b (length b) = prefixb b a.
Proof.
  revert a; induction b as [|y b IH]; intros a H; [destruct a; reflexivity|].
  cbn [no_brk forallb] in H. apply andb_true_iff in H as [Hy H]. apply negb_true_iff in Hy.
  assert (Hn : Ascii.eqb y NUL = false).
  { unfold brk in Hy. apply orb_false_iff in Hy as [Hy _]. apply orb_false_iff in Hy. apply Hy. }
  destruct a as [|x a]; cbn [length strncmp_eq prefixb]; [exact Hn|].
  destruct (Ascii.eqb_spec x y) as [->|Hne].
  - rewrite Ascii.eqb_refl, Hn. apply IH; auto.
  - destruct (Ascii.eqb_spec y x); [congruence|reflexivity].
Qed.

Lemma prefixb_full a b : prefixb b a && Nat.eqb (length a) (length b) = eqb_bytes a b.
Proof.
  destruct (prefixb b a) eqn:E.
  - apply prefixb_iff in E as [r ->]. destruct r as [|c r].
    + rewrite app_nil_r, Nat.eqb_refl. symmetry. apply eqb_bytes_refl.
    + cbn [andb]. replace (length (b ++ c :: r) =? length b) with false.
      * symmetry. apply not_true_iff_false. intro H. apply eqb_bytes_eq in H.
        apply (f_equal (@length _)) in H. rewrite app_length in H. cbn in H. lia.
      * symmetry. apply Nat.eqb_neq. rewrite app_length. cbn. lia.
  - cbn [andb]. symmetry. apply not_true_iff_false. intro H. apply eqb_bytes_eq in H. subst a.
    assert (prefixb b b = true) by (apply prefixb_iff; exists []; rewrite app_nil_r; reflexivity). congruence.
Qed.

Lemma find_matches_eq line t : no_brk t = true -> find_matches line t = eqb_bytes line t.
Proof. intro H. unfold find_matches. rewrite strncmp_full by auto. apply prefixb_full. Qed.

(** ** The iterator on a file that changed only before its position *)

Lemma Good_transfer f g cap it : length g = length f -> skipn (lpos it) g = skipn (lpos it) f ->
  Good f cap it -> Good g cap it /\ plines g it = plines f it /\ measure g it = measure f it.
Proof.
  intros Hl Hs (HL & Ht & Hf & He).
  assert (Hp : plines g it = plines f it) by (unfold plines, pend; rewrite Hs; reflexivity).
  split; [|split; [exact Hp|unfold measure; rewrite Hl; reflexivity]].
  split; [|split; [|split]].
  - destruct HL as (HF & H1 & H2 & H3). split; [|split; [exact H1|split; [exact H2|]]].
    + unfold FInv in *. rewrite Hl. exact HF.
    + unfold lpos in Hs. rewrite Hs. exact H3.
  - unfold pend in *. rewrite Hs. exact Ht.
  - rewrite Hp. exact Hf.
  - rewrite Hp. exact He.
Qed.

Lemma lpos_le f cap it : Good f cap it -> lpos it <= length f.
Proof. intros ((HF & _) & _). destruct HF as (_ & F2 & _). unfold lpos. lia. Qed.

Lemma skipn_mark f o p : o < p -> o < length f -> skipn p (wl_mark f o) = skipn p f.
Proof.
  intros Hp Ho. unfold wl_mark. rewrite write_at_inside by auto.
  replace p with (o + (p - o)) at 1 by lia.
  rewrite skipn_add.
  rewrite skipn_app_exact by (rewrite firstn_length; lia).
  replace (p - o) with (1 + (p - o - 1)) by lia. rewrite (skipn_add 1).
  change (skipn 1 (BAR :: skipn (S o) f)) with (skipn (S o) f).
  rewrite <- skipn_add. f_equal. lia.
Qed.

Definition wanted (line : bytes) (e : ventry) : bool := eqb_bytes line (v_text e).

Lemma wanted_mk line o t s : wanted line (mkV o t s) = eqb_bytes line t.
Proof. reflexivity. Qed.

Section Find.
Variable cap fuel : nat.
Variable line : bytes.
Hypothesis Hcap : 0 < cap.

Lemma plines_text f it o t : In (o, t) (plines f it) -> no_brk t = true.
Proof. intro H. unfold plines in H. apply raw_lines_text in H; auto. apply H. Qed.

Lemma find_first_ok n f it : Good f cap it -> measure f it < fuel -> length f - lpos it < n ->
  find_first n fuel line f it =
  Some (option_map v_off (find (wanted line) (visible_from (removed_in (li_removals it)) None (plines f it)))).
Proof.
  revert it; induction n as [|k IH]; intros it HG Hm Hn; [lia|].
  cbn [find_first]. unfold li_next. pose proof (li_loop_ok f cap fuel it None HG Hcap Hm) as Hr.
  destruct (li_loop fuel f it None) as [|it'|it' off text ts']; cbn [result_spec] in Hr; [contradiction| |].
  - destruct Hr as (H1 & _). rewrite H1. reflexivity.
  - destruct Hr as (H1 & H2 & H3 & H4 & H5 & H6 & H7 & _).
    assert (Ht : no_brk text = true).
    { assert (Hin : In (mkV off text ts') (visible_from (removed_in (li_removals it)) None (plines f it)))
        by (rewrite H7; left; reflexivity).
      apply visible_from_in in Hin as (Hin & _). cbn in Hin. apply plines_text in Hin. exact Hin. }
    rewrite find_matches_eq by auto. rewrite H7. cbn [find]. unfold wanted at 1. cbn [v_text].
    destruct (eqb_bytes line text); [reflexivity|].
    rewrite IH; auto; try lia.
    + rewrite H3. reflexivity.
    + pose proof (lpos_le f cap it' H1). destruct text; [congruence|]. cbn [length] in H5. lia.
Qed.

Lemma find_defer_ok n f it r c : Good f cap it -> measure f it < fuel -> length f - lpos it < n ->
  let hits := filter (wanted line) (visible_from (removed_in (li_removals it)) None (plines f it)) in
  find_defer n fuel line f it r c = Some (fold_left wl_defer (map v_off hits) r, c + length hits).
Proof.
  revert it r c; induction n as [|k IH]; intros it r c HG Hm Hn hits; [lia|].
  cbn [find_defer]. unfold li_next. pose proof (li_loop_ok f cap fuel it None HG Hcap Hm) as Hr.
  destruct (li_loop fuel f it None) as [|it'|it' off text ts']; cbn [result_spec] in Hr; [contradiction| |].
  - destruct Hr as (H1 & _). unfold hits. rewrite H1. cbn. rewrite Nat.add_0_r. reflexivity.
  - destruct Hr as (H1 & H2 & H3 & H4 & H5 & H6 & H7 & _).
    assert (Ht : no_brk text = true).
    { assert (Hin : In (mkV off text ts') (visible_from (removed_in (li_removals it)) None (plines f it)))
        by (rewrite H7; left; reflexivity).
      apply visible_from_in in Hin as (Hin & _). cbn in Hin. apply plines_text in Hin. exact Hin. }
    rewrite find_matches_eq by auto. unfold hits. rewrite H7. cbn [filter]. rewrite !wanted_mk.
    pose proof (lpos_le f cap it' H1). 
    assert (length f - lpos it' < k) by (destruct text; [congruence|]; cbn [length] in H5; lia).
    destruct (eqb_bytes line text); rewrite IH by (auto; lia); rewrite H3; cbn [map fold_left length v_off]; [|reflexivity].
    f_equal. f_equal. lia.
Qed.

Lemma find_remove_ok n f it c : Good f cap it -> measure f it < fuel -> length f - lpos it < n ->
  let hits := filter (wanted line) (visible_from (removed_in (li_removals it)) None (plines f it)) in
  find_remove n fuel line f it c = Some (fold_left wl_mark (map v_off hits) f, c + length hits).
Proof.
  revert f it c; induction n as [|k IH]; intros f it c HG Hm Hn hits; [lia|].
  cbn [find_remove]. unfold li_next. pose proof (li_loop_ok f cap fuel it None HG Hcap Hm) as Hr.
  destruct (li_loop fuel f it None) as [|it'|it' off text ts']; cbn [result_spec] in Hr; [contradiction| |].
  - destruct Hr as (H1 & _). unfold hits. rewrite H1. cbn. rewrite Nat.add_0_r. reflexivity.
  - destruct Hr as (H1 & H2 & H3 & H4 & H5 & H6 & H7 & _).
    assert (Ht : no_brk text = true).
    { assert (Hin : In (mkV off text ts') (visible_from (removed_in (li_removals it)) None (plines f it)))
        by (rewrite H7; left; reflexivity).
      apply visible_from_in in Hin as (Hin & _). cbn in Hin. apply plines_text in Hin. exact Hin. }
    rewrite find_matches_eq by auto. unfold hits. rewrite H7. cbn [filter]. rewrite !wanted_mk.
    pose proof (lpos_le f cap it' H1).
    assert (0 < length text) by (destruct text; [congruence|cbn; lia]).
    destruct (eqb_bytes line text).
    + destruct (Good_transfer f (wl_mark f off) cap it') as (HG' & Hp & Hms); auto.
      * apply mark_length. lia.
      * apply skipn_mark; lia.
      * rewrite IH; auto.
        -- rewrite Hp, H3. cbn [map fold_left length v_off]. f_equal. f_equal. lia.
        -- rewrite Hms. lia.
        -- rewrite mark_length by lia. lia.
    + rewrite IH by (auto; lia). rewrite H3. reflexivity.
Qed.

End Find.

(** ** Marking a set of visible entries *)

Lemma in_mark_line o o' t ls : In (o', t) (map (mark_line o) ls) -> o' <> o -> In (o', t) ls.
Proof.
  intros H Hne. apply in_map_iff in H as ([p u] & E & Hin). unfold mark_line in E. cbn [fst snd] in E.
  destruct (Nat.eqb_spec p o) as [->|_]; [injection E as <- <-; congruence|]. injection E as <- <-. exact Hin.
Qed.

Lemma mark_line_in o o' t ls : In (o', t) ls -> o' <> o -> In (o', t) (map (mark_line o) ls).
Proof.
  intros H Hne. apply in_map_iff. exists (o', t). split; auto. unfold mark_line. cbn [fst].
  apply Nat.eqb_neq in Hne. rewrite Hne. reflexivity.
Qed.

Lemma visible_mark rm f o t : In (o, t) (lines_of f) -> bar_line t = false -> rm o = false ->
  fakes_time t = false ->
  visible rm (wl_mark f o) = filter (fun e => negb (Nat.eqb (v_off e) o)) (visible rm f).
Proof.
  intros Hin Hb Hr Hf. unfold visible. rewrite (mark_lines f o t Hin).
  apply visible_mark_from; [apply lines_of_ascending|].
  intros u Hu. rewrite (ascending_unique _ o u t (lines_of_ascending f) Hu Hin). auto.
Qed.

Definition markable (rm : nat -> bool) (f : bytes) (o : nat) : Prop :=
  exists t, In (o, t) (lines_of f) /\ bar_line t = false /\ rm o = false /\ fakes_time t = false.

Lemma markable_mark rm f o o' t : In (o, t) (lines_of f) -> o' <> o -> markable rm f o' -> markable rm (wl_mark f o) o'.
Proof.
  intros Hin Hne (u & Hu & H). exists u. split; auto.
  rewrite (mark_lines f o t Hin). apply mark_line_in; auto.
Qed.

Lemma filter_filter {A} (p q : A -> bool) l : filter p (filter q l) = filter (fun x => q x && p x) l.
Proof. induction l as [|x l IH]; cbn; auto. destruct (q x) eqn:E; cbn; rewrite IH; destruct (p x); auto. Qed.

Lemma filter_all {A} (p : A -> bool) l : (forall x, p x = true) -> filter p l = l.
Proof. intro H. induction l as [|x l IH]; cbn; auto. rewrite H, IH. reflexivity. Qed.

Lemma visible_marks rm os : forall f, NoDup os -> Forall (markable rm f) os ->
  visible rm (fold_left wl_mark os f) = filter (fun e => negb (mem_nat (v_off e) os)) (visible rm f).
Proof.
  induction os as [|o os IH]; intros f Hnd Hm.
  - symmetry. apply filter_all. reflexivity.
  - cbn [fold_left]. apply NoDup_cons_iff in Hnd as [Hnin Hnd]. pose proof (Forall_inv Hm) as (t & Hin & Hb & Hr & Hf).
    apply Forall_inv_tail in Hm.
    rewrite IH; auto.
    + rewrite (visible_mark rm f o t) by auto. rewrite filter_filter. apply filter_ext.
      intro e. cbn [mem_nat existsb]. rewrite negb_orb. reflexivity.
    + apply Forall_forall. intros o' Ho'. eapply markable_mark; eauto.
      * intros ->. contradiction.
      * rewrite Forall_forall in Hm. auto.
Qed.

Lemma marks_length os : forall f, Forall (fun o => o < length f) os -> length (fold_left wl_mark os f) = length f.
Proof.
  induction os as [|o os IH]; intros f H; cbn [fold_left]; auto.
  pose proof (Forall_inv H). apply Forall_inv_tail in H.
  rewrite IH.
  - apply mark_length; auto.
  - rewrite mark_length; auto.
Qed.

Lemma marks_terminated os rm : forall f, NoDup os -> Forall (markable rm f) os -> terminated f ->
  terminated (fold_left wl_mark os f).
Proof.
  induction os as [|o os IH]; intros f Hnd Hm Ht; cbn [fold_left]; auto.
  apply NoDup_cons_iff in Hnd as [Hnin Hnd]. pose proof (Forall_inv Hm) as (t & Hin & Hrest).
  apply Forall_inv_tail in Hm. apply IH; auto.
  - apply Forall_forall. intros o' Ho'. eapply markable_mark; eauto.
    + intros ->. contradiction.
    + rewrite Forall_forall in Hm. auto.
  - eapply mark_terminated; eauto.
Qed.

Lemma marks_lines os rm : forall f, NoDup os -> Forall (markable rm f) os ->
  lines_of (fold_left wl_mark os f) =
  map (fun l => if mem_nat (fst l) os then (fst l, BAR :: tl (snd l)) else l) (lines_of f).
Proof.
  induction os as [|o os IH]; intros f Hnd Hm; cbn [fold_left].
  - symmetry. rewrite <- map_id. apply map_ext. intros [p u]. reflexivity.
  - apply NoDup_cons_iff in Hnd as [Hnin Hnd]. pose proof (Forall_inv Hm) as (t & Hin & Hrest).
    apply Forall_inv_tail in Hm. rewrite IH; auto.
    + rewrite (mark_lines f o t Hin), map_map. apply map_ext. intros [p u].
      unfold mark_line. cbn [fst snd mem_nat existsb]. destruct (Nat.eqb_spec p o) as [->|Hne]; cbn [fst snd orb].
      * destruct (mem_nat o os) eqn:E; [|reflexivity].
        exfalso. apply Hnin. unfold mem_nat in E. apply existsb_exists in E as (x & Hx & Ex).
        apply Nat.eqb_eq in Ex. subst x. exact Hx.
      * reflexivity.
    + apply Forall_forall. intros o' Ho'. eapply markable_mark; eauto.
      * intros ->. contradiction.
      * rewrite Forall_forall in Hm. auto.
Qed.

Lemma ascending_nodup ls : ascending ls -> NoDup (map fst ls).
Proof.
  induction 1 as [|l ls Hlt Ha IH]; cbn; constructor; auto.
  intro H. apply in_map_iff in H as (m & E & Hm). apply Hlt in Hm. lia.
Qed.

Lemma visible_offs_nodup rm f : NoDup (map v_off (visible rm f)).
Proof.
  pose proof (ascending_nodup _ (visible_from_ascending rm None _ (lines_of_ascending f))) as H.
  rewrite map_map in H. exact H.
Qed.

Lemma NoDup_map_filter {A B} (g : A -> B) p l : NoDup (map g l) -> NoDup (map g (filter p l)).
Proof.
  induction l as [|x l IH]; cbn; auto. intro H. apply NoDup_cons_iff in H as [H1 H2].
  destruct (p x); cbn; auto. constructor; auto.
  intro Hin. apply H1. apply in_map_iff in Hin as (y & E & Hy). apply filter_In in Hy as [Hy _].
  apply in_map_iff. eauto.
Qed.

Lemma visible_unique rm f e e' : In e (visible rm f) -> In e' (visible rm f) -> v_off e = v_off e' -> e = e'.
Proof.
  intros H1 H2 E. pose proof (visible_offs_nodup rm f) as Hnd.
  induction (visible rm f) as [|x l IH]; [destruct H1|].
  cbn in Hnd. apply NoDup_cons_iff in Hnd as [Hn Hnd].
  destruct H1 as [->|H1], H2 as [->|H2]; auto.
  - exfalso. apply Hn. rewrite E. apply in_map; auto.
  - exfalso. apply Hn. rewrite <- E. apply in_map; auto.
Qed.

Lemma mem_nat_in n l : mem_nat n l = true <-> In n l.
Proof.
  unfold mem_nat. rewrite existsb_exists. split.
  - intros (x & Hx & E). apply Nat.eqb_eq in E. subst. auto.
  - intro H. exists n. rewrite Nat.eqb_refl. auto.
Qed.

(** Membership of an offset among the hits is the hit test itself. *)
Lemma hits_mem rm f p e : In e (visible rm f) ->
  mem_nat (v_off e) (map v_off (filter p (visible rm f))) = p e.
Proof.
  intro H. apply eq_true_iff_eq. rewrite mem_nat_in, in_map_iff. split.
  - intros (x & E & Hx). apply filter_In in Hx as [Hx Hp].
    rewrite <- (visible_unique rm f x e); auto.
  - intro Hp. exists e. rewrite filter_In. auto.
Qed.

Lemma filter_ext_in' {A} (p q : A -> bool) l : (forall x, In x l -> p x = q x) -> filter p l = filter q l.
Proof.
  induction l as [|x l IH]; intro H; cbn; auto. rewrite (H x) by (left; auto). rewrite IH; auto.
  intros; apply H; right; auto.
Qed.

Lemma hits_markable rm f line : bar_line line = false \/ True -> fakes_time line = false ->
  Forall (markable rm f) (map v_off (filter (wanted line) (visible rm f))).
Proof.
  intros _ Hf. apply Forall_forall. intros o Ho. apply in_map_iff in Ho as (e & <- & He).
  apply filter_In in He as [He Hw]. unfold wanted in Hw. apply eqb_bytes_eq in Hw.
  apply visible_from_in in He as (Hin & Hb & Hr). exists (v_text e).
  repeat split; auto. rewrite <- Hw. exact Hf.
Qed.

(** Remove by text, directly on the file. *)
Definition remove_text_file (G : bytes) (line f : bytes) (rs : list nat) : option (bytes * nat) :=
  find_remove (S (length f)) (li_fuel f) line f (li_init f G rs) 0.

Lemma remove_text_file_ok G rs line f :
  terminated f -> lines_fit (length G) (lines_of f) -> 0 < length G -> fakes_time line = false ->
  exists f', find_remove (S (length f)) (li_fuel f) line f (li_init f G rs) 0 =
    Some (f', length (filter (wanted line) (visible (removed_in rs) f))) /\
  visible (removed_in rs) f' = filter (fun e => negb (wanted line e)) (visible (removed_in rs) f) /\
  terminated f' /\ length f' = length f /\
  lines_of f' = map (fun l => if mem_nat (fst l) (map v_off (filter (wanted line) (visible (removed_in rs) f)))
                              then (fst l, BAR :: tl (snd l)) else l) (lines_of f).
Proof.
  intros Ht Hf Hg Hfk.
  destruct (init_good f G rs Hg Ht Hf) as (HG & Hp & Hl).
  rewrite (find_remove_ok (length G) (li_fuel f) line Hg (S (length f)) f _ 0 HG).
  - rewrite Hp. cbn [li_removals li_init Nat.add].
    change (visible_from (removed_in rs) None (lines_of f)) with (visible (removed_in rs) f).
    pose proof (hits_markable (removed_in rs) f line (or_intror I) Hfk) as Hm.
    assert (Hnd : NoDup (map v_off (filter (wanted line) (visible (removed_in rs) f))))
      by (apply NoDup_map_filter; apply visible_offs_nodup).
    eexists. split; [reflexivity|]. split; [|split; [|split]].
    + rewrite visible_marks by auto. apply filter_ext_in'. intros e He. rewrite hits_mem by auto. reflexivity.
    + eapply marks_terminated; eauto.
    + apply marks_length. eapply Forall_impl; [|exact Hm]. intros o (t & Hin & _).
      apply lines_of_bounds in Hin. lia.
    + eapply marks_lines; eauto.
  - unfold measure, li_fuel. rewrite Hl. lia.
  - rewrite Hl. lia.
Qed.
