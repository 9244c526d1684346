(** Properties of several sessions sharing a master history: C09, C10 (every reachable state), C19, C56. *)
From Verif Require Import Base HistFileModel HistSpec HistFileProofs HistLines HistFindProofs HistDbModel HistDbSpec
  HistDbProofs HistDbProperties HistCompactSpec HistCompactProofs HistWorldModel HistReapSpec HistReapProofs
  HistReapProperties HistWorldSpec HistWorldProofs.

(** ** What one removal changes *)

Lemma but_cons_ne o e es : v_off e <> o -> but o (e :: es) = off_text e :: but o es.
Proof. intro H. unfold but. cbn [map filter off_text fst]. apply Nat.eqb_neq in H. rewrite H. reflexivity. Qed.
Lemma but_cons_eq o e es : v_off e = o -> but o (e :: es) = but o es.
Proof. intro H. unfold but. cbn [map filter off_text fst]. apply Nat.eqb_eq in H. rewrite H. reflexivity. Qed.

Lemma but_rm o rm rm' ls : (forall x, x <> o -> rm x = rm' x) -> forall ts ts',
  but o (visible_from rm ts ls) = but o (visible_from rm' ts' ls).
Proof.
  intro H. induction ls as [|[x t] ls IH]; intros ts ts'; [reflexivity|]. cbn [visible_from].
  destruct (time_line t); auto. destruct (bar_line t); auto.
  destruct (Nat.eq_dec x o) as [->|Hne].
  - destruct (rm o), (rm' o); rewrite ?but_cons_eq by reflexivity; auto.
  - rewrite (H x Hne). destruct (rm' x); auto. rewrite !but_cons_ne by exact Hne. f_equal. auto.
Qed.

Lemma but_mark o rm ls : forall ts ts',
  but o (visible_from rm ts (map (mark_line o) ls)) = but o (visible_from rm ts' ls).
Proof.
  induction ls as [|[x t] ls IH]; intros ts ts'; [reflexivity|]. cbn [map]. unfold mark_line at 1. cbn [fst snd].
  destruct (Nat.eqb x o) eqn:E.
  - apply Nat.eqb_eq in E. subst x. cbn [visible_from]. change (bar_line (BAR :: tl t)) with true.
    destruct (time_line (BAR :: tl t)), (time_line t), (bar_line t), (rm o); rewrite ?but_cons_eq by reflexivity; auto.
  - apply Nat.eqb_neq in E. cbn [visible_from]. destruct (time_line t); auto. destruct (bar_line t); auto. destruct (rm x); auto.
    rewrite !but_cons_ne by exact E. f_equal. auto.
Qed.

Lemma still_at f rm o t : still f o t -> at_off o t (visible rm f).
Proof.
  intros H e He Eo. apply visible_from_in in He as (He & Hb & _). rewrite Eo in He.
  destruct H as [H|H]; pose proof (ascending_unique _ _ _ _ (lines_of_ascending f) He H) as E; auto.
  rewrite E in Hb. discriminate.
Qed.

Lemma mark_gone f rm o t : still f o t -> gone o (visible rm (wl_mark f o)).
Proof.
  intros H e He Eo. apply visible_from_in in He as (He & Hb & _). rewrite Eo in He.
  destruct (still_start _ _ _ H) as [x Hx]. rewrite (mark_lines f o x Hx) in He.
  apply in_map_iff in He as ([o' t'] & E & _). unfold mark_line in E. cbn [fst snd] in E.
  destruct (Nat.eqb o' o) eqn:En.
  - injection E as _ E. rewrite <- E in Hb. discriminate.
  - injection E as E _. apply Nat.eqb_neq in En. contradiction.
Qed.

Lemma removed_mark (G T : bytes) m r o t x : 51 < length G -> 51 <= length T -> wf_master (length G) m -> In (o, t) (lines_of m) ->
  wf_rem r -> spec_removed (wl_mark m o) r x = spec_removed m r x.
Proof.
  intros HG HT (_ & tag & rest & -> & Hg) Hin Hr. destruct (mark_tag G T HG HT tag rest o t Hg Hin) as [rest' ->].
  destruct r as [rf|]; [|reflexivity]. destruct Hr as (tg & os & -> & Hgt & _). destruct tg as [t'|].
  - rewrite !spec_removed_tagged by auto. reflexivity.
  - rewrite !spec_removed_untagged by auto. reflexivity.
Qed.

Lemma removed_defer m r o x : wf_master 0 m \/ (exists tag rest, m = tag ++ LF :: rest /\ good_tag tag) -> wf_rem (Some r) -> x <> o ->
  spec_removed m (Some (wl_defer r o)) x = spec_removed m (Some r) x.
Proof.
  intros Hm (tg & os & -> & Hgt & _) Hx. assert (Hm' : exists tag rest, m = tag ++ LF :: rest /\ good_tag tag) by (destruct Hm as [(_ & H)|H]; exact H).
  destruct Hm' as (tag & rest & -> & Hg). change (wl_defer (rem_file tg os) o) with (fold_left wl_defer [o] (rem_file tg os)).
  rewrite defer_rem_file. destruct tg as [t'|].
  - rewrite !spec_removed_tagged by auto. f_equal. apply eq_true_iff_eq. rewrite !mem_nat_in, in_app_iff. cbn [In].
    split; [intros [H|[H|[]]]; auto; congruence|auto].
  - rewrite !spec_removed_untagged by auto. reflexivity.
Qed.

Lemma defer_gone m r o : rem_current m (Some r) -> gone o (view_master m (Some (wl_defer r o))).
Proof.
  intros (tag & rest & os & -> & Hg & -> & _) e He Eo. apply visible_from_in in He as (_ & _ & He). rewrite Eo in He.
  change (wl_defer (rem_file (Some tag) os) o) with (fold_left wl_defer [o] (rem_file (Some tag) os)) in He.
  rewrite defer_rem_file, spec_removed_tagged, eqb_bytes_refl in He by auto. cbn [andb] in He.
  assert (Hi : mem_nat o (os ++ [o]) = true) by (apply mem_nat_in, in_or_app; right; left; reflexivity). congruence.
Qed.

(** C09: in every reachable state, remove(id) with an id the session was given by its last load either changes
    nothing, or removes the entry the session was shown under that id; no other entry changes in the view of any
    session.  The master is only touched when its tag is still the one the session loaded. *)
Theorem c09_removes_only_what_was_loaded : forall (G T : bytes) used w i p id t m' s' ok,
  51 < length G -> 51 <= length T -> reachable G T used w -> nth_error (w_p w) i = Some p -> p_alive p = true ->
  In (id, t) (p_shown p) -> db_remove id (w_m w) (p_s p) = (m', s', ok) ->
  (ok = false /\ m' = w_m w /\ s' = p_s p) \/
  (ok = true /\ exists o,
    (id = line_id bank_master o /\ s_ctag (p_s p) = tag_of (w_m w) /\ s_lines s' = s_lines (p_s p) /\
     removes_only o t (view_master (w_m w) (s_rem (p_s p))) (view_master m' (s_rem s')) /\
     (forall r, wf_rem r -> removes_only o t (view_master (w_m w) r) (view_master m' r)) /\
     (rem_current (w_m w) (s_rem (p_s p)) -> gone o (view_master m' (s_rem s')))) \/
    (id = line_id bank_session o /\ m' = w_m w /\ s_rem s' = s_rem (p_s p) /\
     removes_only o t (view_session (s_lines (p_s p))) (view_session (s_lines s')) /\
     gone o (view_session (s_lines s')))).
Proof.
  intros G T used w i p id t m' s' ok HG HT Hr Ep Ea Hin E.
  destruct (reach_inv G T HG HT used w Hr) as (Hm & Hs & _ & _ & Hp).
  pose proof (Forall_nth _ _ _ _ Hp Ep) as (A & B & C & D & _ & F).
  destruct (db_remove_cases G T HG HT _ _ _ _ _ _ _ Hm (F Ea id t Hin) E) as [H|[H|[H|H]]].
  - left. exact H.
  - destruct H as (o & r & -> & -> & Hc & Hst & Er & -> & ->). right. split; auto. exists o. left.
    destruct (map_remove_fields (line_id bank_master o) (set_rem (p_s p) (Some (wl_defer r o)))) as (M1 & M2 & _).
    rewrite M1, M2. cbn [set_rem s_lines s_rem]. rewrite Er in *. split; [|split; [|split; [|split; [|split]]]]; auto.
    + split; [|apply still_at; auto]. unfold view_master, visible. apply but_rm. intros x Hx.
      apply removed_defer; auto; [right; apply Hm|]. eapply rem_inv_wf; exact C.
    + intros r0 _. split; [reflexivity|apply still_at; auto].
    + apply defer_gone.
  - destruct H as (o & -> & -> & Hc & Hst & Er & -> & ->). right. split; auto. exists o. left.
    destruct (map_remove_fields (line_id bank_master o) (p_s p)) as (M1 & M2 & _). rewrite M1, M2, Er.
    destruct (still_start _ _ _ Hst) as [x Hx].
    assert (Hall : forall r, wf_rem r -> removes_only o t (view_master (w_m w) r) (view_master (wl_mark (w_m w) o) r)).
    { intros r Hwr. split; [|apply still_at; auto]. unfold view_master, visible. rewrite (mark_lines _ _ _ Hx).
      rewrite (but_mark o _ _ None None). apply but_rm. intros y _. apply (removed_mark G T _ _ _ x); auto. }
    split; [|split; [|split; [|split; [|split]]]]; auto.
    + apply Hall. exact I.
    + intros _. eapply mark_gone; eauto.
  - destruct H as (o & l & -> & -> & El & Hst & -> & ->). right. split; auto. exists o. right.
    destruct (map_remove_fields (line_id bank_session o) (set_lines (p_s p) (Some (wl_mark l o)))) as (M1 & M2 & _).
    rewrite M1, M2. cbn [set_lines s_lines s_rem]. rewrite El. split; [|split; [|split; [|split]]]; auto.
    + destruct (still_start _ _ _ Hst) as [x Hx]. split; [|apply still_at; auto].
      unfold view_session, visible. rewrite (mark_lines _ _ _ Hx). apply but_mark.
    + eapply mark_gone; eauto.
Qed.
Print Assumptions c09_removes_only_what_was_loaded.

(** An id of the master bank is rejected, and nothing changes, once the tag is not the loaded one. *)
Theorem c09_stale_id_rejected : forall (G : bytes) m s o, wf_master (length G) m -> (N.of_nat o < max_off)%N ->
  s_ctag s <> tag_of m -> db_remove (line_id bank_master o) m s = (m, s, false).
Proof.
  intros G m s o (_ & tag & rest & -> & Hg) Ho Hne. unfold db_remove.
  assert (HG : 1 < length (repeat NUL 51)) by (rewrite repeat_length; lia).
  assert (HT : 51 <= length (repeat NUL 51)) by (rewrite repeat_length; lia).
  destruct (id_parts _ _ HG HT bank_master o) as (I1 & I2 & I3); [exact Ho|reflexivity|].
  apply N.eqb_neq in I3. rewrite I3, I1. change (N.eqb bank_master bank_master) with true. cbn [andb].
  unfold tag_ok. unfold tag_of in Hne. rewrite extract_ctag_ok in * by auto. cbn [tag_or_empty] in Hne.
  destruct (eqb_bytes tag (s_ctag s)) eqn:E; [|reflexivity]. apply eqb_bytes_eq in E. congruence.
Qed.
Print Assumptions c09_stale_id_rejected.

(** No step gets stuck (fuel suffices) and the conditions of the single-session theorems hold in every reachable state. *)
Theorem c09_reachable_well_formed : forall (G T : bytes) used w, 51 < length G -> 51 <= length T -> reachable G T used w ->
  (forall st, step_ok (length G) used w st -> exists w', do_step G T w st = Some w') /\
  wf_master (length G) (w_m w) /\
  forall i p, nth_error (w_p w) i = Some p -> wf G (w_m w) (p_s p) /\ removals_at_lines (w_m w) (s_rem (p_s p)).
Proof.
  intros G T used w HG HT Hr. pose proof (reach_inv G T HG HT used w Hr) as HI. split; [|split].
  - intros st Hok. destruct (inv_step G T HG HT used w st HI Hok) as (w' & E & _). eauto.
  - apply HI.
  - destruct HI as (Hm & Hs & _ & _ & Hp). intros i p Ep. pose proof (Forall_nth _ _ _ _ Hp Ep) as Hpi. split.
    + eapply p_inv_wf; eauto.
    + destruct Hpi as (_ & _ & C & _). eapply rem_at_lines; eauto.
Qed.
Print Assumptions c09_reachable_well_formed.

(** C10 in every reachable state: the master becomes what the session saw of it, then the session's own lines. *)
Theorem c10_reap_in_any_state : forall (G T : bytes) used w j q l,
  51 < length G -> 51 <= length T -> reachable G T used w -> step_ok (length G) used w (SReap j) ->
  nth_error (w_p w) j = Some q -> p_alive q = false -> s_lines (p_s q) = Some l ->
  exists w' q', do_step G T w (SReap j) = Some w' /\
    map v_text (visible none_removed (w_m w')) =
      map v_text (not_removed (w_m w) (s_rem (p_s q))) ++ map v_text (visible none_removed l) /\
    w_p w' = set_nth (w_p w) j q' /\ s_lines (p_s q') = None /\ s_rem (p_s q') = None.
Proof.
  intros G T used w j q l HG HT Hr Hok Eq Ea El.
  destruct (c09_reachable_well_formed G T used w HG HT Hr) as (_ & Hm & Hw). destruct (Hw j q Eq) as (Hwf & Hrl).
  assert (HG1 : 1 < length G) by lia. destruct Hwf as (_ & Hl & Hrem & _). rewrite El in Hl. cbn [wf_bank] in Hl.
  destruct (reap_ok G T HG1 HT (w_m w) l (s_rem (p_s q))) as (m' & E & Ht & _); auto. { apply Hl. }
  cbn [do_step]. rewrite Eq, Ea, El, E. cbn [r_m r_l r_r]. eexists. eexists. split; [reflexivity|]. cbn [upd w_m w_p].
  split; [exact Ht|]. split; [reflexivity|]. split; reflexivity.
Qed.
Print Assumptions c10_reap_in_any_state.

(** ** C19 *)

(** A removals file with another tag than the master's: no removal by text has any effect on what the session sees.
    Loading does not repair it (s_rem is unchanged by load_internal_ok), nor does compaction by anyone. *)
Theorem c19_stale_removals_ignored : forall (G T : bytes) line m s tag os m' s' n,
  1 < length G -> 51 <= length T -> wf_master (length G) m -> s_rem s = Some (rem_file (Some tag) os) ->
  good_tag tag -> tag <> tag_of m ->
  remove_text_master G T line m s = Some (m', s', n) ->
  m' = m /\ view_master m' (s_rem s') = visible none_removed m.
Proof.
  intros G T line m s tag os m' s' n HG HT Hm Er Hgt Hne E. unfold remove_text_master in E. rewrite Er in E.
  assert (Hf : lines_fit (length G) (lines_of m)) by (apply (fits_G G T HG HT); apply Hm).
  destruct (init_good m G (removals_seen T m (Some (rem_file (Some tag) os)))) as (Hgd & Hp & Hlp); [lia|apply Hm|exact Hf|].
  rewrite (find_defer_ok (length G)) in E by (auto; rewrite ?Hlp; unfold measure, li_fuel; rewrite ?Hlp; lia).
  cbv zeta in E. rewrite defer_rem_file in E.
  injection E as E1 E2 _. subst m' s'. split; [reflexivity|]. cbn [set_rem s_rem].
  unfold view_master, visible. apply visible_from_ext. intros o t _.
  destruct Hm as (_ & mtag & rest & -> & Hg).
  unfold tag_of in Hne. rewrite extract_ctag_ok in Hne by auto. cbn [tag_or_empty] in Hne.
  match goal with |- spec_removed _ (Some (tag ++ LF :: nums ?x)) _ = _ => change (tag ++ LF :: nums x) with (rem_file (Some tag) x) end.
  rewrite spec_removed_tagged by auto. destruct (eqb_bytes mtag tag) eqn:Eb; [|reflexivity].
  apply eqb_bytes_eq in Eb. congruence.
Qed.
Print Assumptions c19_stale_removals_ignored.

(** A run with the real buffer sizes: session 0 reads the tag, session 1 compacts, session 0 creates its files and
    loads. *)
Definition w0 : world := mkW ex_master [].
Definition after (w : world) (st : step) : world := match do_step exG exT w st with Some w' => w' | None => w end.
Definition c19_w2 : world := Eval vm_compute in after (after w0 SBegin) SBegin.
Definition c19_tag : tagsrc := mkTag 7 8 9 0.
Definition c19_w3 : world := Eval vm_compute in after c19_w2 (SCompact 1 c19_tag 0 false).
Definition c19_world : world := Eval vm_compute in after (after c19_w3 (SOpen 0 false true)) (SLoad 0).

Lemma safe_ex : safe_file ex_master.
Proof.
  unfold safe_file. replace (lines_of ex_master) with
   [(0, ex_tag); (14, lit "dir"); (18, TIME ++ lit "9"); (27, lit "cd x"); (32, lit "dir /s")] by (vm_compute; reflexivity).
  repeat (apply Forall_cons; [first [left; reflexivity|right; reflexivity]|]). apply Forall_nil.
Qed.

Lemma reach_w0 : reachable realG realT [ex_tag] w0.
Proof.
  apply (reach_init realG realT ex_tag (skipn 14 ex_master)).
  - exact ex_master_wf_real.
  - exact ex_tag_good.
  - exact safe_ex.
Qed.

Ltac next R st w := let R' := fresh "R" in
  match type of R with reachable ?G ?T ?u ?w1 =>
    assert (R' : reachable G T (new_tags st ++ u) w);
    [apply (reach_step G T u w1 st w R); [|vm_compute; reflexivity]|clear R; rename R' into R; cbn [new_tags app] in R]
  end.

Lemma reach_c19_w2 : reachable realG realT [ex_tag] c19_w2.
Proof.
  pose proof reach_w0 as R. next R SBegin (after w0 SBegin); [exact I|]. next R SBegin c19_w2; [exact I|]. exact R.
Qed.

Lemma reach_c19_w3 : reachable realG realT [tag_text c19_tag; ex_tag] c19_w3.
Proof.
  pose proof reach_c19_w2 as R. next R (SCompact 1 c19_tag 0 false) c19_w3; [|exact R].
  split; [repeat split|]. split.
  - intros [E|[]]. revert E. vm_compute. discriminate.
  - vm_compute. discriminate.
Qed.

Lemma reach_c19_world : reachable realG realT [tag_text c19_tag; ex_tag] c19_world.
Proof.
  pose proof reach_c19_w3 as R. next R (SOpen 0 false true) (after c19_w3 (SOpen 0 false true)); [exact I|].
  next R (SLoad 0) c19_world; [exact I|]. exact R.
Qed.

(** The statement: what a session with deferred removals (erase_prev) removes is gone from its view. *)
Theorem c19_removal_after_start_refuted :
  ~ (forall used w i p r line m' s' n, reachable realG realT used w -> nth_error (w_p w) i = Some p -> p_alive p = true ->
       s_rem (p_s p) = Some r -> plain line -> p_shown p <> [] ->
       remove_text_master realG realT line (w_m w) (p_s p) = Some (m', s', n) ->
       ~ In line (map v_text (view_master m' (s_rem s')))).
Proof.
  intro H.
  assert (E : exists p r, nth_error (w_p c19_world) 0 = Some p /\ s_rem (p_s p) = Some r /\ p_alive p = true /\ p_shown p <> [] /\
    exists m' s' n, remove_text_master realG realT (lit "dir") (w_m c19_world) (p_s p) = Some (m', s', n) /\
      In (lit "dir") (map v_text (view_master m' (s_rem s')))).
  { do 2 eexists. split; [reflexivity|]. split; [reflexivity|]. split; [reflexivity|]. split; [discriminate|].
    do 3 eexists. split; [vm_compute; reflexivity|vm_compute; auto]. }
  destruct E as (p & r & Ep & Er & Ea & Hs & m' & s' & n & E & Hin).
  refine (H _ _ _ _ _ _ _ _ _ reach_c19_world Ep Ea Er _ Hs E Hin). split; [discriminate|repeat split].
Qed.
Print Assumptions c19_removal_after_start_refuted.

(** ** Non-vacuity of C09 and C10: session 0 loads, session 1 compacts in between (stale ids), loads and removes by id
    "cd x" in its own view, session 0 ends and is reaped. *)
Definition ex_w4 : world := Eval vm_compute in after c19_world (SLoad 1).
Definition ex_w5 : world := Eval vm_compute in
  after (after (after ex_w4 (SOpen 1 false true)) (SAdd 0 true 77 (lit "make"))) (SRemId 1 (line_id bank_master 27)).

Lemma ex_plain_make : plain (lit "make").
Proof. split; [discriminate|repeat split]. Qed.

Lemma reach_ex_w5 : exists used, reachable realG realT used ex_w5.
Proof.
  eexists. pose proof reach_c19_world as R. next R (SLoad 1) ex_w4; [exact I|].
  next R (SOpen 1 false true) (after ex_w4 (SOpen 1 false true)); [exact I|].
  next R (SAdd 0 true 77 (lit "make")) (after (after ex_w4 (SOpen 1 false true)) (SAdd 0 true 77 (lit "make"))).
  { split; [exact ex_plain_make|]. split; [unfold realG; rewrite repeat_length; change (length (lit "make")) with 4; lia|]. split; [vm_compute; discriminate|].
    intros p l E El. vm_compute in E. injection E as <-. vm_compute in El. injection El as <-. vm_compute. discriminate. }
  next R (SRemId 1 (line_id bank_master 27)) ex_w5.
  { do 2 eexists. split; [vm_compute; reflexivity|]. vm_compute. auto. }
  exact R.
Qed.

Example c09_example : exists used p, reachable realG realT used ex_w4 /\ nth_error (w_p ex_w4) 1 = Some p /\ p_alive p = true /\
  In (line_id bank_master 27, lit "cd x") (p_shown p).
Proof.
  do 2 eexists. split; [|split; [reflexivity|split; [reflexivity|]]].
  - pose proof reach_c19_world as R. next R (SLoad 1) ex_w4; [exact I|]. exact R.
  - vm_compute. auto.
Qed.

(** ** Compaction by the session itself *)

(** compact stores the new tag without reloading the index map (1723-1726), so right after it the tag check accepts
    old ids and removes another entry.  load_rl_history, the only caller that keeps running, loads again (1549-1553). *)
Definition own_w : world := Eval vm_compute in after (after (after w0 SBegin) (SLoad 0)) (SRemM 0 (lit "dir")).
Definition own_tag : tagsrc := mkTag 1234567890 1 1 2.
Definition own_w' : world := Eval vm_compute in after own_w (SCompact 0 own_tag 0 false).

Lemma reach_own : reachable realG realT [ex_tag] own_w.
Proof.
  pose proof reach_w0 as R. next R SBegin (after w0 SBegin); [exact I|].
  next R (SLoad 0) (after (after w0 SBegin) (SLoad 0)); [exact I|].
  next R (SRemM 0 (lit "dir")) own_w; [split; [discriminate|repeat split]|]. exact R.
Qed.

Theorem c09_own_compaction_refuted :
  ~ (forall used w i p id t w' p' tag m' s', reachable realG realT used w -> nth_error (w_p w) i = Some p -> p_alive p = true ->
       In (id, t) (p_shown p) ->
       step_ok (length realG) used w (SCompact i tag 0 false) -> do_step realG realT w (SCompact i tag 0 false) = Some w' ->
       nth_error (w_p w') i = Some p' -> db_remove id (w_m w') (p_s p') = (m', s', true) ->
       forall t', In t' (map v_text (view_master (w_m w') (s_rem (p_s p')))) ->
       ~ In t' (map v_text (view_master m' (s_rem s'))) -> t' = t).
Proof.
  intro H.
  assert (Hst : step_ok (length realG) [ex_tag] own_w (SCompact 0 own_tag 0 false)).
  { split; [repeat split|]. split; [|vm_compute; discriminate]. intros [E|[]]. revert E. vm_compute. discriminate. }
  assert (E : exists p p' m' s', nth_error (w_p own_w) 0 = Some p /\ p_alive p = true /\
     In (line_id bank_master 32, lit "dir /s") (p_shown p) /\
     do_step realG realT own_w (SCompact 0 own_tag 0 false) = Some own_w' /\ nth_error (w_p own_w') 0 = Some p' /\
     db_remove (line_id bank_master 32) (w_m own_w') (p_s p') = (m', s', true) /\
     In (lit "cd x") (map v_text (view_master (w_m own_w') (s_rem (p_s p')))) /\
     ~ In (lit "cd x") (map v_text (view_master m' (s_rem s')))).
  { do 4 eexists. split; [reflexivity|]. split; [reflexivity|]. split; [vm_compute; auto|].
    split; [vm_compute; reflexivity|]. split; [reflexivity|]. split; [vm_compute; reflexivity|]. split; [vm_compute; auto|].
    vm_compute. intros [X|[]]. discriminate. }
  destruct E as (p & p' & m' & s' & E1 & E2 & E3 & E4 & E5 & E6 & E7 & E8).
  pose proof (H _ _ _ _ _ _ _ _ _ _ _ reach_own E1 E2 E3 Hst E4 E5 E6 _ E7 E8) as X. discriminate X.
Qed.
Print Assumptions c09_own_compaction_refuted.

(** ** C56: a new session starts without pending removals *)

(** With files of its own, a new session sees every entry of the master. *)
Theorem c56_new_session_sees_all_partial : forall (G T : bytes) used w i p erase,
  51 < length G -> 51 <= length T -> reachable G T used w -> nth_error (w_p w) i = Some p -> p_alive p = true ->
  s_lines (p_s p) = None ->
  exists w' p', do_step G T w (SOpen i false erase) = Some w' /\ nth_error (w_p w') i = Some p' /\
    view_master (w_m w') (s_rem (p_s p')) = visible none_removed (w_m w) /\ view_session (s_lines (p_s p')) = [].
Proof.
  intros G T used w i p erase HG HT Hr Ep Ea El. cbn [do_step]. rewrite Ep, Ea, El.
  destruct (reach_inv G T HG HT used w Hr) as (Hm & _ & _ & Hgu & Hp).
  pose proof (Forall_nth _ _ _ _ Hp Ep) as (_ & _ & _ & _ & E & _).
  eexists. eexists. split; [reflexivity|]. cbn [upd w_m w_p]. split.
  { assert (Hset : forall (A : Type) (x y : A) k l, nth_error l k = Some y -> nth_error (set_nth l k x) k = Some x).
    { intros A x y. induction k as [|k IH]; intros [|z l] Hz; try discriminate; cbn [set_nth nth_error] in *; auto. }
    eapply Hset. exact Ep. }
  cbn [p_s s_rem s_lines]. split; [|reflexivity]. unfold view_master, visible. apply visible_from_ext. intros o t _.
  destruct erase; [|reflexivity]. rewrite make_removals_new. destruct Hm as (_ & tag & rest & -> & Hg).
  rewrite spec_removed_tagged; auto.
  - unfold none_removed. apply andb_false_r.
  - rewrite Forall_forall in Hgu. auto.
Qed.
Print Assumptions c56_new_session_sees_all_partial.

(** Not when it gets the process id of a crashed session whose files are still there: make_removals_file (160-171)
    overwrites only the tag line, so the old offsets become removals from the current master.  Session 0 removes "dir"
    and dies; session 1 clears and adds "cls"; session 2 has the process id of session 0, ends, and is reaped: "cls" is
    deleted from the master although nobody removed it. *)
Definition c56_trace : list step :=
  [SBegin; SOpen 0 false true; SRemM 0 (lit "dir"); SEnd 0;
   SBegin; SClear 1 c19_tag; SAdd 1 false 0 (lit "cls");
   SBegin; SReuse 2 0].
Theorem c56_new_session_sees_all_refuted : exists w w' p,
  run realG realT w0 c56_trace = Some w /\ nth_error (w_p w) 2 = Some p /\
  map v_text (visible none_removed (w_m w)) = [lit "cls"] /\ view_master (w_m w) (s_rem (p_s p)) = [] /\
  run realG realT w [SEnd 2; SReap 2] = Some w' /\ visible none_removed (w_m w') = [].
Proof.
  do 3 eexists. split; [vm_compute; reflexivity|]. split; [reflexivity|]. split; [vm_compute; reflexivity|].
  split; [vm_compute; reflexivity|]. split; [vm_compute; reflexivity|]. vm_compute. reflexivity.
Qed.
Print Assumptions c56_new_session_sees_all_refuted.
