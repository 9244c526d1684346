(** Proofs about reaping (HistWorldModel.v). *)
From Verif Require Import Base HistFileModel HistSpec HistFileProofs HistLines HistFindProofs HistDbModel HistDbSpec
  HistDbProofs HistCompactSpec HistCompactProofs HistWorldModel HistReapSpec.

(** ** Subsequences *)

Lemma subseq_refl {A} (l : list A) : subseq l l.
Proof. induction l; constructor; auto. Qed.

Lemma subseq_app {A} (a b c d : list A) : subseq a b -> subseq c d -> subseq (a ++ c) (b ++ d).
Proof.
  intros H1 H2. induction H1; cbn [app]; try (constructor; auto).
  induction l; cbn [app]; [auto|constructor; auto].
Qed.

Lemma subseq_app_r {A} (a b c : list A) : subseq a c -> subseq a (b ++ c).
Proof. intro H. induction b; cbn [app]; [auto|constructor; auto]. Qed.

(** ** Marking lines, in any order and repeatedly *)

Lemma mark_bar f o t : In (o, t) (lines_of f) -> bar_line t = true -> wl_mark f o = f.
Proof.
  intros H Hb. apply in_line_at in H as (pre & b & post & -> & <- & _ & Hne & _ & _).
  destruct t as [|x t]; [congruence|]. cbn in Hb. apply Ascii.eqb_eq in Hb. subst x. apply mark_decomp.
Qed.

Definition at_line (f : bytes) (o : nat) : Prop :=
  exists t, In (o, t) (lines_of f) /\ (bar_line t = true \/ fakes_time t = false).

Lemma at_line_mark f o o' : at_line f o -> at_line f o' -> at_line (wl_mark f o) o'.
Proof.
  intros (t & Hin & _) (t' & Hin' & Hor).
  unfold at_line. rewrite (mark_lines f o t) by auto.
  destruct (Nat.eq_dec o' o) as [->|Hne].
  - exists (BAR :: tl t'). split; [|left; reflexivity].
    apply in_map_iff. exists (o, t'). split; auto. unfold mark_line. cbn [fst snd]. rewrite Nat.eqb_refl. reflexivity.
  - exists t'. split; auto. apply mark_line_in; auto.
Qed.

Lemma visible_mark_any f o : at_line f o ->
  visible none_removed (wl_mark f o) = filter (fun e => negb (Nat.eqb (v_off e) o)) (visible none_removed f).
Proof.
  intros (t & Hin & Hor). destruct (bar_line t) eqn:Eb.
  - rewrite (mark_bar f o t) by auto. symmetry. apply filter_id_in. intros e He.
    apply visible_from_in in He as (He & Hb & _).
    destruct (Nat.eqb_spec (v_off e) o) as [E|E]; auto.
    rewrite E in He. pose proof (ascending_unique _ _ _ _ (lines_of_ascending f) Hin He). congruence.
  - destruct Hor as [Hor|Hor]; [congruence|]. eapply visible_mark; eauto.
Qed.

Lemma marks_any os : forall f, Forall (at_line f) os ->
  visible none_removed (fold_left wl_mark os f) =
    filter (fun e => negb (mem_nat (v_off e) os)) (visible none_removed f) /\
  (terminated f -> terminated (fold_left wl_mark os f)) /\
  length (fold_left wl_mark os f) = length f.
Proof.
  induction os as [|o os IH]; intros f H; cbn [fold_left].
  - split; [|split; auto]. symmetry. apply filter_all. reflexivity.
  - pose proof (Forall_inv H) as Ho. pose proof (Forall_inv_tail H) as Hos.
    destruct (IH (wl_mark f o)) as (A & B & C).
    { apply Forall_forall. intros o' Ho'. rewrite Forall_forall in Hos. apply at_line_mark; auto. }
    destruct Ho as (t & Hin & Hor). pose proof (lines_of_bounds _ _ _ Hin) as Hb.
    split; [|split].
    + rewrite A, visible_mark_any by (exists t; auto). rewrite filter_filter. apply filter_ext_in'.
      intros e _. unfold mem_nat. cbn [existsb]. rewrite negb_orb. reflexivity.
    + intro Ht. apply B. eapply mark_terminated; eauto.
    + rewrite C. apply mark_length. lia.
Qed.

(** Marks inside the first part commute with appending. *)
Lemma mark_app f g o : o < length f -> wl_mark (f ++ g) o = wl_mark f o ++ g.
Proof.
  intro H. unfold wl_mark. rewrite !write_at_inside by (rewrite ?app_length; lia).
  rewrite firstn_app, skipn_app. replace (o - length f) with 0 by lia. replace (S o - length f) with 0 by lia.
  cbn [firstn skipn]. rewrite app_nil_r, <- app_assoc. reflexivity.
Qed.

Lemma marks_app os : forall f g, Forall (fun o => o < length f) os ->
  fold_left wl_mark os (f ++ g) = fold_left wl_mark os f ++ g.
Proof.
  induction os as [|o os IH]; intros f g H; cbn [fold_left]; auto.
  pose proof (Forall_inv H). pose proof (Forall_inv_tail H) as Ht.
  rewrite mark_app by auto. apply IH. rewrite mark_length by auto. exact Ht.
Qed.

Lemma at_line_app f g o : terminated f -> at_line f o -> at_line (f ++ g) o.
Proof.
  intros Ht (t & Hin & H). exists t. split; auto. rewrite lines_of_app by auto. apply in_or_app; auto.
Qed.

(** ** Appending a file *)

Definition shift_v (k : nat) (e : ventry) : ventry :=
  mkV (k + v_off e) (v_text e) (option_map (fun p => (k + fst p, snd p)) (v_ts e)).

Lemma visible_shift k ls : forall ts,
  visible_from none_removed (option_map (fun p => (k + fst p, snd p)) ts) (map (fun l => (k + fst l, snd l)) ls) =
  map (shift_v k) (visible_from none_removed ts ls).
Proof.
  induction ls as [|[o t] ls IH]; intro ts; cbn [map visible_from fst snd]; auto.
  destruct (time_line t).
  - change (Some (k + o, skipn 7 t)) with (option_map (fun p => (k + fst p, snd p)) (Some (o, skipn 7 t))). apply IH.
  - destruct (bar_line t).
    + apply (IH None).
    + cbn [none_removed map]. f_equal. apply (IH None).
Qed.

Lemma visible_texts_ts rm ls ts ts' :
  map v_text (visible_from rm ts ls) = map v_text (visible_from rm ts' ls).
Proof.
  revert ts ts'; induction ls as [|[o t] ls IH]; intros ts ts'; cbn [visible_from]; auto.
  destruct (time_line t); auto. destruct (bar_line t); auto. destruct (rm o); auto.
Qed.

(** The entries of [f] stay, those of [g] follow at shifted positions. *)
Lemma visible_app f g : terminated f -> exists es,
  visible none_removed (f ++ g) = visible none_removed f ++ es /\
  map v_text es = map v_text (visible none_removed g) /\
  (forall e, In e es -> length f <= v_off e) /\
  (no_dangling f -> map shown_as es = map shown_as (visible none_removed g)).
Proof.
  intro Ht. unfold visible at 1. rewrite lines_of_app, visible_from_app by auto.
  exists (visible_from none_removed (ts_after none_removed None (lines_of f)) (raw_lines (length f) [] g)).
  split; [reflexivity|]. split; [|split].
  - rewrite (visible_texts_ts _ _ _ None), raw_lines_shift0.
    pose proof (visible_shift (length f) (lines_of g) None) as Hs. cbn [option_map] in Hs. rewrite Hs, map_map. reflexivity.
  - intros e He. apply visible_from_in in He as (He & _). apply raw_lines_bounds in He; [|cbn; lia].
    cbn [length fst] in He. lia.
  - intro Hd. rewrite no_dangling_ts by auto. rewrite raw_lines_shift0.
    pose proof (visible_shift (length f) (lines_of g) None) as Hs. cbn [option_map] in Hs. rewrite Hs, map_map. apply map_ext.
    intros [o t [[p s]|]]; reflexivity.
Qed.

(** ** The operations of a reap *)

Lemma do_appends cs : forall m l r,
  fold_left reap_do (map RAppend cs) (mkR m l r) = mkR (m ++ concat cs) l r.
Proof.
  induction cs as [|c cs IH]; intros m l r; cbn [map fold_left reap_do concat r_m r_l r_r].
  - rewrite app_nil_r. reflexivity.
  - rewrite IH, app_assoc. reflexivity.
Qed.

Lemma do_marks os : forall m l r,
  fold_left reap_do (map RMark os) (mkR m l r) = mkR (fold_left wl_mark os m) l r.
Proof. induction os as [|o os IH]; intros m l r; cbn [map fold_left reap_do r_m r_l r_r]; auto. Qed.

Lemma firstn_map' {A B} (f : A -> B) n l : firstn n (map f l) = map f (firstn n l).
Proof. revert l; induction n as [|n IH]; intros [|x l]; cbn; auto. rewrite IH. reflexivity. Qed.

Lemma firstn_in {A} n (l : list A) x : In x (firstn n l) -> In x l.
Proof. intro H. rewrite <- (firstn_skipn n l). apply in_or_app. auto. Qed.

Section Reap.
Variable G T : bytes.
Hypothesis HG : 1 < length G.
Hypothesis HT : 51 <= length T.

Lemma chunks_concat fuel : forall l, length l <= fuel -> concat (chunks G fuel l) = l.
Proof.
  induction fuel as [|k IH]; intros l H; cbn [chunks].
  - destruct l; [reflexivity|cbn in H; lia].
  - destruct l as [|c l]; [reflexivity|]. cbn [concat].
    rewrite IH; [apply firstn_skipn|]. rewrite skipn_length. cbn [length] in *. lia.
Qed.

(** A prefix of the chunks is nothing, everything, or at least one buffer of the file. *)
Definition part_of (l p : bytes) : Prop :=
  p = [] \/ p = l \/ (length G <= length p /\ exists q, l = p ++ q).

Lemma chunks_prefix fuel : forall l n, length l <= fuel -> part_of l (concat (firstn n (chunks G fuel l))).
Proof.
  induction fuel as [|k IH]; intros l n H; cbn [chunks].
  - left. destruct n; reflexivity.
  - destruct l as [|c l]; [left; destruct n; reflexivity|]. set (f := c :: l) in *.
    destruct n as [|n]; [left; reflexivity|]. cbn [firstn concat].
    assert (Hs : length (skipn (length G) f) <= k) by (rewrite skipn_length; cbn [length f] in *; subst f; cbn [length] in *; lia).
    destruct (Nat.le_gt_cases (length f) (length G)) as [Hle|Hgt].
    + right. left. rewrite (firstn_all2 f) by lia. rewrite (skipn_all2 f) by lia.
      replace (chunks G k []) with (@nil bytes) by (destruct k; reflexivity). destruct n; apply app_nil_r.
    + right. right. destruct (IH (skipn (length G) f) n Hs) as [E|[E|(_ & q & E)]].
      * rewrite E, app_nil_r, firstn_length. split; [lia|]. exists (skipn (length G) f). symmetry. apply firstn_skipn.
      * rewrite E, firstn_skipn. split; [lia|]. exists []. symmetry. apply app_nil_r.
      * split; [rewrite app_length, firstn_length; lia|]. exists q. rewrite <- app_assoc, <- E. symmetry. apply firstn_skipn.
Qed.

(** The removals that reaping applies depend on the tag of the master only. *)
Lemma seen_same_tag tag rest rest' r : good_tag tag -> wf_rem r ->
  removals_seen T (tag ++ LF :: rest) r = removals_seen T (tag ++ LF :: rest') r.
Proof.
  intros Hg Hr. destruct r as [rf|]; [|reflexivity].
  destruct Hr as (tg & os & -> & Hgt & Hos). unfold removals_seen. destruct tg as [t|].
  - rewrite !(for_each_removal_tagged T _ tag _ t os HT eq_refl) by auto. reflexivity.
  - rewrite !(for_each_removal_untagged T _ tag _ os HT eq_refl) by auto. reflexivity.
Qed.

Lemma seen_iff tag rest r o : good_tag tag -> wf_rem r ->
  In o (removals_seen T (tag ++ LF :: rest) r) <-> 0 < o /\ spec_removed (tag ++ LF :: rest) r o = true.
Proof.
  intros Hg Hr. destruct r as [rf|]; [|cbn; split; [intros []|intros [_ H]; discriminate]].
  destruct Hr as (tg & os & -> & Hgt & Hos). unfold removals_seen. destruct tg as [t|].
  - rewrite (for_each_removal_tagged T _ tag _ t os HT eq_refl) by auto.
    rewrite spec_removed_tagged by auto.
    destruct (eqb_bytes tag t); cbn [andb].
    + unfold offs_of. rewrite filter_In, mem_nat_in. split; intros [A B]; split; auto; lia.
    + split; [intros []|intros [_ H]; discriminate].
  - rewrite (for_each_removal_untagged T _ tag _ os HT eq_refl) by auto.
    rewrite spec_removed_untagged by auto. split; [intros []|intros [_ H]; discriminate].
Qed.

(** ** Crashes *)

Section Run.
Variable tag rest l : bytes.
Variable r : option bytes.
Let m : bytes := tag ++ LF :: rest.
Let os : list nat := removals_seen T m r.
Hypothesis Hg : good_tag tag.
Hypothesis Hm : terminated m.
Hypothesis Hr : wf_rem r.
Hypothesis Hrl : removals_at_lines m r.

Lemma os_at_line o : In o os -> at_line m o.
Proof.
  intro H. apply seen_iff in H as [_ H]; auto. destruct (Hrl o H) as (t & Hin & Hor). exists t. auto.
Qed.

Lemma os_pos o : In o os -> S (length tag) <= o < length m.
Proof.
  intro H. pose proof H as H0. apply seen_iff in H0 as [Hp _]; auto.
  apply os_at_line in H as (t & Hin & _). pose proof (lines_of_bounds _ _ _ Hin). split; [|lia].
  unfold m in Hin. rewrite lines_tagged in Hin by auto. destruct Hin as [E|Hin]; [injection E as E _; lia|].
  apply raw_lines_bounds in Hin; [|cbn; lia]. cbn [length fst] in Hin. lia.
Qed.

Lemma incl_lt os' : incl os' os -> Forall (fun o => o < length m) os'.
Proof. intro H. apply Forall_forall. intros o Ho. apply H in Ho. apply os_pos in Ho. lia. Qed.

Definition marked (os' : list nat) (x : bytes) : bytes := fold_left wl_mark os' (m ++ x).

Lemma marked_app os' x y : incl os' os -> marked os' x ++ y = marked os' (x ++ y).
Proof.
  intro H. unfold marked. rewrite app_assoc. symmetry. apply marks_app.
  pose proof (incl_lt os' H) as H1. eapply Forall_impl; [|exact H1]. intros o Ho. cbn beta in *. rewrite app_length. lia.
Qed.

Lemma marked_more os' os2 x : fold_left wl_mark os2 (marked os' x) = marked (os' ++ os2) x.
Proof. unfold marked. rewrite fold_left_app. reflexivity. Qed.

Lemma marked_tagged os' x : incl os' os -> exists rest', marked os' x = tag ++ LF :: rest'.
Proof.
  intro H. apply tagged_prefix. unfold marked. rewrite (marks_prefix G T HG HT).
  - unfold m. rewrite <- app_assoc. cbn [app]. apply (firstn_tagged G T HG HT).
  - apply Forall_forall. intros o Ho. apply H in Ho. apply os_pos in Ho. rewrite app_length. lia.
Qed.

Lemma seen_marked os' x : incl os' os -> removals_seen T (marked os' x) r = os.
Proof. intro H. destruct (marked_tagged os' x H) as [rest' ->]. apply seen_same_tag; auto. Qed.

(** States during and after reaping. *)
Definition mid (ps : list bytes) (os' : list nat) (st : rstate) : Prop :=
  r_m st = marked os' (concat ps) /\ Forall (part_of l) ps /\ incl os' os /\ r_l st = Some l /\
  (r_r st = r \/ (r_r st = None /\ incl os os')).
Definition fin (ps : list bytes) (os' : list nat) (st : rstate) : Prop :=
  r_m st = marked os' (concat ps ++ l) /\ Forall (part_of l) ps /\ incl os' os /\ incl os os' /\
  r_l st = None /\ r_r st = None.

Lemma ops_prefix k ps os' st : mid ps os' st ->
  let st' := fold_left reap_do (firstn k (reap_ops G T (r_m st) l (r_r st))) st in
  (exists p os2, mid (ps ++ [p]) os2 st') \/ (exists os2, fin ps os2 st').
Proof.
  intros (Em & Hps & Hi & El & Er) st'. unfold st', reap_ops. clear st'.
  set (cur := removals_seen T (r_m st ++ l) (r_r st)).
  assert (Hcur : incl cur os /\ incl os (os' ++ cur)).
  { unfold cur. destruct Er as [Er|[Er Hx]]; rewrite Er.
    - rewrite Em, marked_app, seen_marked by auto. split; [apply incl_refl|apply incl_appr, incl_refl].
    - cbn. split; [intros o []|rewrite app_nil_r; exact Hx]. }
  destruct Hcur as [Hc1 Hc2]. destruct st as [sm sl sr]. cbn [r_m r_l r_r] in *. subst sm sl.
  rewrite firstn_app, fold_left_app, firstn_map', do_appends.
  set (cs := chunks G (length l) l). set (n := k - length (map RAppend cs)).
  pose proof (chunks_prefix (length l) l k (le_n _)) as Hp. fold cs in Hp.
  rewrite marked_app by auto.
  destruct (Nat.le_gt_cases k (length cs)) as [Hk|Hk].
  { left. exists (concat (firstn k cs)), os'. replace n with 0 by (unfold n; rewrite map_length; lia). cbn [firstn fold_left].
    split; [|split; [|split; [|split]]]; auto.
    - cbn [r_m]. rewrite concat_app. cbn [concat]. rewrite app_nil_r. reflexivity.
    - apply Forall_app. split; auto. }
  rewrite (firstn_all2 cs) by lia. unfold cs. rewrite chunks_concat by lia. clear Hp.
  rewrite firstn_app, fold_left_app, firstn_map', do_marks, marked_more.
  assert (Hf : forall j, incl (os' ++ firstn j cur) os).
  { intros j o Ho. apply in_app_or in Ho as [Ho|Ho]; [auto|]. apply firstn_in in Ho. auto. }
  assert (Hpl : Forall (part_of l) (ps ++ [l])).
  { apply Forall_app. split; auto. apply Forall_cons; auto. right. left. reflexivity. }
  assert (Hcc : concat (ps ++ [l]) = concat ps ++ l) by (rewrite concat_app; cbn [concat]; rewrite app_nil_r; reflexivity).
  rewrite map_length.
  destruct (n - length cur) as [|[|j]] eqn:En; cbn [firstn fold_left reap_do r_m r_l r_r].
  - left. exists l, (os' ++ firstn n cur). split; [|split; [|split; [|split]]]; cbn [r_m r_l r_r]; auto.
    + rewrite Hcc. reflexivity.
    + destruct Er as [Er|[Er Hx]]; [left; auto|right; split; auto]. apply incl_appl. exact Hx.
  - left. exists l, (os' ++ firstn n cur). split; [|split; [|split; [|split]]]; cbn [r_m r_l r_r]; auto.
    + rewrite Hcc. reflexivity.
    + right. split; auto. rewrite (firstn_all2 cur) by lia. exact Hc2.
  - right. exists (os' ++ firstn n cur). rewrite firstn_nil. cbn [fold_left].
    split; [|split; [|split; [|split; [|split]]]]; cbn [r_m r_l r_r]; auto.
    rewrite (firstn_all2 cur) by lia. exact Hc2.
Qed.

Lemma reap_mid ps os' st : mid ps os' st -> exists os2, fin ps os2 (reap G T st).
Proof.
  intro H. pose proof H as (Em & Hps & Hi & El & Er). unfold reap. rewrite El.
  destruct (ops_prefix (length (reap_ops G T (r_m st) l (r_r st))) ps os' st H) as [(p & os2 & Hx)|Hx].
  - exfalso. rewrite firstn_all in Hx. unfold reap_ops in Hx. rewrite !fold_left_app in Hx.
    destruct Hx as (_ & _ & _ & Hx & _). cbn [fold_left reap_do r_l] in Hx. discriminate.
  - rewrite firstn_all in Hx. exact Hx.
Qed.

Lemma reap_fin ps os' st : fin ps os' st -> reap G T st = st /\ forall k, reap_crash G T k st = st.
Proof. intros (_ & _ & _ & _ & El & _). unfold reap, reap_crash. rewrite El. auto. Qed.

Lemma crashes_then_reap ks : forall ps os' st, mid ps os' st \/ fin ps os' st ->
  exists ps2 os2, fin ps2 os2 (reap G T (fold_left (fun s k => reap_crash G T k s) ks st)) /\
    length ps2 <= length ps + length ks.
Proof.
  induction ks as [|k ks IH]; intros ps os' st H; cbn [fold_left length].
  - destruct H as [H|H].
    + destruct (reap_mid _ _ _ H) as [os2 Hx]. exists ps, os2. split; auto. lia.
    + destruct (reap_fin _ _ _ H) as [E _]. rewrite E. exists ps, os'. split; auto. lia.
  - destruct H as [H|H].
    + pose proof (ops_prefix k ps os' st H) as Hx. cbv zeta in Hx.
      assert (Ec : reap_crash G T k st = fold_left reap_do (firstn k (reap_ops G T (r_m st) l (r_r st))) st).
      { unfold reap_crash. destruct H as (_ & _ & _ & El & _). rewrite El. reflexivity. }
      rewrite Ec. destruct Hx as [(p & os2 & Hx)|(os2 & Hx)].
      * destruct (IH (ps ++ [p]) os2 _ (or_introl Hx)) as (ps2 & os3 & A & B). exists ps2, os3. split; auto.
        rewrite app_length in B. cbn [length] in B. lia.
      * destruct (IH ps os2 _ (or_intror Hx)) as (ps2 & os3 & A & B). exists ps2, os3. split; auto. lia.
    + destruct (reap_fin _ _ _ H) as [_ E]. rewrite E.
      destruct (IH ps os' st (or_intror H)) as (ps2 & os3 & A & B). exists ps2, os3. split; auto. lia.
Qed.

Lemma start_mid : mid [] [] (mkR m (Some l) r).
Proof.
  split; [|split; [|split; [|split]]]; cbn [r_m r_l r_r]; auto.
  - unfold marked. cbn. rewrite app_nil_r. reflexivity.
  - intros o [].
Qed.

(** What is shown in the end. *)
Lemma fin_visible ps os' st : fin ps os' st -> exists es,
  visible none_removed (r_m st) = not_removed m r ++ es /\
  map v_text es = map v_text (visible none_removed (concat ps ++ l)) /\
  (no_dangling m -> map shown_as es = map shown_as (visible none_removed (concat ps ++ l))).
Proof.
  intros (Em & _ & Hi & Hi2 & _). rewrite Em. unfold marked.
  destruct (marks_any os' (m ++ concat ps ++ l)) as (A & _).
  { apply Forall_forall. intros o Ho. apply at_line_app; auto. apply os_at_line. auto. }
  destruct (visible_app m (concat ps ++ l) Hm) as (es & E & E1 & E2 & E3).
  exists es. rewrite A, E, filter_app. split; [|split]; auto. f_equal.
  - unfold not_removed. apply filter_ext_in'. intros e He. f_equal.
    apply visible_from_in in He as (He & Hb & _).
    assert (Hp : 0 < v_off e).
    { unfold m in He. pose proof (line_after_tag G T HG HT _ _ _ _ Hg He Hb). lia. }
    apply eq_true_iff_eq. rewrite mem_nat_in. split; intro H.
    + apply Hi in H. apply seen_iff in H as [_ H]; auto.
    + apply Hi2. apply seen_iff; auto.
  - apply filter_id_in. intros e He. apply E2 in He. destruct (mem_nat (v_off e) os') eqn:Ex; auto.
    apply mem_nat_in in Ex. apply Hi in Ex. apply os_pos in Ex. lia.
Qed.

End Run.

(** The parts written by interrupted reaps do not hide entries of the last copy. *)
Lemma texts_app f g : terminated f ->
  map v_text (visible none_removed (f ++ g)) = map v_text (visible none_removed f) ++ map v_text (visible none_removed g).
Proof.
  intro H. destruct (visible_app f g H) as (es & E & E1 & _). rewrite E, map_app, E1. reflexivity.
Qed.

Lemma parts_subseq l ps : terminated l -> lines_fit (length G) (lines_of l) -> Forall (part_of l) ps ->
  subseq (map v_text (visible none_removed l)) (map v_text (visible none_removed (concat ps ++ l))).
Proof.
  intros Ht Hf. induction ps as [|p ps IH]; intro Hps; [apply subseq_refl|].
  pose proof (Forall_inv Hps) as Hp. pose proof (Forall_inv_tail Hps) as Hps'. cbn [concat].
  destruct Hp as [->|[->|(Hlen & q & E)]].
  - apply IH; auto.
  - rewrite <- app_assoc, texts_app by auto.
    rewrite <- (app_nil_r (map v_text (visible none_removed l))) at 1.
    apply subseq_app; [apply subseq_refl|constructor].
  - destruct l as [|c l'] eqn:El; [constructor|]. destruct (brk c) eqn:Ec.
    + assert (Hc : terminated [c]) by (rewrite <- (app_nil_l [c]); apply terminated_snoc; auto).
      assert (Hv : visible none_removed [c] = []).
      { unfold visible, lines_of. cbn [raw_lines]. rewrite Ec. reflexivity. }
      change (c :: l') with ([c] ++ l'). rewrite (texts_app [c] l' Hc), Hv. cbn [map]. rewrite app_assoc.
      rewrite (texts_app ((p ++ concat ps) ++ [c]) l' (terminated_snoc _ _ Ec)).
      apply subseq_app; [constructor|apply subseq_refl].
    + destruct (split_run (c :: l')) as (bs & run & rst & E0 & H1 & H2 & H3 & H4 & H5 & H6).
      destruct bs as [|b0 bs].
      2:{ exfalso. cbn in E0. injection E0 as Eb _. subst b0. cbn in H1. rewrite Ec in H1. discriminate. }
      cbn [app] in E0.
      destruct rst as [|b l2].
      { exfalso. rewrite app_nil_r in E0. rewrite <- E0 in H2. destruct Ht as [Ht|(g & b & Eg & Hb)]; [discriminate|].
        rewrite Eg in H2. unfold no_brk in H2. rewrite forallb_app in H2. apply andb_true_iff in H2 as [_ H2].
        cbn in H2. rewrite Hb in H2. discriminate. }
      assert (Hb : brk b = true) by (eapply H4; reflexivity).
      assert (Hne : run <> []).
      { intro Ern. rewrite Ern in E0. cbn in E0. injection E0 as Eb _. congruence. }
      assert (Hrl : length run < length G).
      { unfold lines_fit in Hf. rewrite Forall_forall in Hf. apply (Hf (0, run)).
        apply line_at_in. exists [], b, l2. split; [exact E0|]. split; [reflexivity|].
        split; [left; reflexivity|]. auto. }
      assert (Hpp : exists p2, p = (run ++ [b]) ++ p2).
      { exists (skipn (S (length run)) p). rewrite <- (firstn_skipn (S (length run)) p) at 1. f_equal.
        transitivity (firstn (S (length run)) (p ++ q)).
        - rewrite firstn_app. replace (S (length run) - length p) with 0 by lia. cbn [firstn]. rewrite app_nil_r. reflexivity.
        - rewrite <- E, E0. replace (run ++ b :: l2) with ((run ++ [b]) ++ l2) by (rewrite <- app_assoc; reflexivity).
          apply firstn_app_exact. rewrite app_length. cbn. lia. }
      destruct Hpp as [p2 ->]. rewrite E0.
      replace (run ++ b :: l2) with ((run ++ [b]) ++ l2) by (rewrite <- app_assoc; reflexivity).
      assert (Htb : forall x, terminated (x ++ run ++ [b])) by (intro x; rewrite app_assoc; apply terminated_snoc; auto).
      set (hd := run ++ [b]) in *. rewrite (texts_app hd l2 (Htb [])).
      replace ((hd ++ p2) ++ concat ps ++ hd ++ l2) with (hd ++ ((p2 ++ concat ps) ++ hd) ++ l2)
        by (rewrite !app_assoc; reflexivity).
      replace (((hd ++ p2) ++ concat ps) ++ hd ++ l2) with (hd ++ ((p2 ++ concat ps) ++ hd) ++ l2)
        by (rewrite !app_assoc; reflexivity).
      rewrite (texts_app hd _ (Htb [])).
      apply subseq_app; [apply subseq_refl|].
      rewrite (texts_app _ l2 (Htb (p2 ++ concat ps))). apply subseq_app_r, subseq_refl.
Qed.

(** With one chunk, the parts are whole copies. *)
Fixpoint copies (n : nat) (l : bytes) : bytes := match n with O => [] | S k => l ++ copies k l end.

Lemma parts_copies l ps : length l <= length G -> Forall (part_of l) ps ->
  exists n, n <= length ps /\ concat ps ++ l = copies (S n) l.
Proof.
  intro Hl. induction ps as [|p ps IH]; intro Hps.
  - exists 0. cbn. rewrite app_nil_r. auto.
  - destruct (IH (Forall_inv_tail Hps)) as (n & Hn & E). pose proof (Forall_inv Hps) as Hp. cbn [concat length].
    assert (Hc : p = [] \/ p = l).
    { destruct Hp as [Hp|[Hp|(Hlen & q & Eq)]]; auto. right. rewrite Eq in Hl. rewrite app_length in Hl.
      destruct q; [rewrite app_nil_r in Eq; auto|cbn in Hl; lia]. }
    destruct Hc as [->| ->].
    + exists n. split; [lia|exact E].
    + exists (S n). split; [lia|]. rewrite <- app_assoc, E. reflexivity.
Qed.

Lemma copies_shown l n : terminated l -> no_dangling l ->
  map shown_as (visible none_removed (copies n l)) = concat (repeat (map shown_as (visible none_removed l)) n).
Proof.
  intros Ht Hd. induction n as [|n IH]; [reflexivity|]. cbn [copies repeat concat].
  destruct (visible_app l (copies n l) Ht) as (es & E & _ & _ & E3). rewrite E, map_app, E3, IH by auto. reflexivity.
Qed.

(** ** The statements *)

(** C10 *)
Lemma reap_ok m l r : wf_master (length G) m -> terminated l -> wf_rem r -> removals_at_lines m r ->
  exists m', reap G T (mkR m (Some l) r) = mkR m' None None /\
    map v_text (visible none_removed m') = map v_text (not_removed m r) ++ map v_text (visible none_removed l) /\
    (no_dangling m -> map shown_as (visible none_removed m') =
       map shown_as (not_removed m r) ++ map shown_as (visible none_removed l)).
Proof.
  intros ((Ht & _) & tag & rest & -> & Hg) Hl Hr Hrl.
  destruct (reap_mid tag rest l r Hg Hr Hrl [] [] _ (start_mid tag rest l r)) as (os2 & Hfin).
  destruct (fin_visible tag rest l r Hg Ht Hr Hrl _ _ _ Hfin) as (es & E & E1 & E2).
  destruct Hfin as (_ & _ & _ & _ & El & Er).
  destruct (reap G T (mkR (tag ++ LF :: rest) (Some l) r)) as [m' l' r']. cbn [r_m r_l r_r] in *. subst l' r'.
  exists m'. split; [reflexivity|]. cbn [concat app] in *. rewrite E, !map_app. split.
  - rewrite E1. reflexivity.
  - intro Hd. rewrite E2 by auto. reflexivity.
Qed.

(** C11 *)
Lemma crash_ok ks m l r : wf_master (length G) m -> terminated l -> lines_fit (length G) (lines_of l) -> wf_rem r ->
  removals_at_lines m r ->
  exists m' ys, reap G T (fold_left (fun s k => reap_crash G T k s) ks (mkR m (Some l) r)) = mkR m' None None /\
    map v_text (visible none_removed m') = map v_text (not_removed m r) ++ ys /\
    subseq (map v_text (visible none_removed l)) ys.
Proof.
  intros ((Ht & _) & tag & rest & -> & Hg) Hl Hf Hr Hrl.
  destruct (crashes_then_reap tag rest l r Hg Hr Hrl ks [] [] _ (or_introl (start_mid tag rest l r))) as (ps & os2 & Hfin & _).
  destruct (fin_visible tag rest l r Hg Ht Hr Hrl _ _ _ Hfin) as (es & E & E1 & _).
  destruct Hfin as (_ & Hps & _ & _ & El & Er).
  destruct (reap G T _) as [m' l' r']. cbn [r_m r_l r_r] in *. subst l' r'.
  exists m', (map v_text es). split; [reflexivity|]. split; [rewrite E, map_app; reflexivity|].
  rewrite E1. apply parts_subseq; auto.
Qed.

(** C12: with a session file of at most one buffer, the result is exact up to repetition of the whole session. *)
Lemma crash_copies ks m l r : wf_master (length G) m -> terminated l -> length l <= length G -> wf_rem r ->
  removals_at_lines m r -> no_dangling m -> no_dangling l ->
  exists m' n, reap G T (fold_left (fun s k => reap_crash G T k s) ks (mkR m (Some l) r)) = mkR m' None None /\
    n <= length ks /\
    map shown_as (visible none_removed m') =
      map shown_as (not_removed m r) ++ concat (repeat (map shown_as (visible none_removed l)) (S n)).
Proof.
  intros ((Ht & _) & tag & rest & -> & Hg) Hl Hlen Hr Hrl Hd Hdl.
  destruct (crashes_then_reap tag rest l r Hg Hr Hrl ks [] [] _ (or_introl (start_mid tag rest l r))) as (ps & os2 & Hfin & Hn).
  destruct (fin_visible tag rest l r Hg Ht Hr Hrl _ _ _ Hfin) as (es & E & _ & E2).
  destruct Hfin as (_ & Hps & _ & _ & El & Er).
  destruct (reap G T _) as [m' l' r']. cbn [r_m r_l r_r] in *. subst l' r'.
  destruct (parts_copies l ps Hlen Hps) as (n & Hn2 & Ec).
  exists m', n. split; [reflexivity|]. cbn [length] in Hn. split; [lia|].
  rewrite E, map_app, E2, Ec, copies_shown by auto. reflexivity.
Qed.

End Reap.
