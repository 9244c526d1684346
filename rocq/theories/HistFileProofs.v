(** Proofs about history files. *)
From Verif Require Import Base HistFileModel HistSpec.

Lemma brk_is c : is_line_breaker c = brk c.
Proof. reflexivity. Qed.

(** ** raw_lines *)

Lemma raw_lines_run o cur t b f :
  no_brk t = true -> brk b = true -> cur ++ t <> [] ->
  raw_lines o cur (t ++ b :: f) =
  (o - length cur, cur ++ t) :: raw_lines (o + length t) [] (b :: f).
Proof.
  revert o cur; induction t as [|c t IH]; intros o cur Ht Hb Hne; cbn [app raw_lines].
  - rewrite Hb. rewrite app_nil_r in *. rewrite Nat.add_0_r.
    destruct cur; [congruence|reflexivity].
  - cbn [no_brk forallb] in Ht. apply andb_true_iff in Ht as [Hc Ht].
    apply negb_true_iff in Hc. rewrite Hc.
    rewrite IH; auto.
    + rewrite app_length. cbn [length]. rewrite <- app_assoc. cbn [app].
      replace (S o - (length cur + 1)) with (o - length cur) by lia.
      replace (S o + length t) with (o + S (length t)) by lia. cbn [raw_lines]. rewrite Hb. reflexivity.
    + intro H. apply app_eq_nil in H as [H _]. apply app_eq_nil in H as [_ H]. discriminate.
Qed.

Lemma raw_lines_nobrk o cur t : no_brk t = true -> raw_lines o cur t = [].
Proof.
  revert o cur; induction t as [|c t IH]; intros o cur Ht; cbn [raw_lines]; auto.
  cbn [no_brk forallb] in Ht. apply andb_true_iff in Ht as [Hc Ht].
  apply negb_true_iff in Hc. rewrite Hc. auto.
Qed.

Lemma raw_lines_brks o bs f : forallb brk bs = true ->
  raw_lines o [] (bs ++ f) = raw_lines (o + length bs) [] f.
Proof.
  revert o; induction bs as [|b bs IH]; intros o H; cbn [app raw_lines length].
  - f_equal; lia.
  - cbn [forallb] in H. apply andb_true_iff in H as [Hb H]. rewrite Hb, IH by auto. f_equal; lia.
Qed.

Lemma terminated_cons b f : brk b = true -> terminated f -> terminated (b :: f).
Proof.
  intros Hb [->|(g & c & -> & Hc)].
  - right. exists [], b. auto.
  - right. exists (b :: g), c. auto.
Qed.

Lemma terminated_app f g : terminated f -> terminated g -> terminated (f ++ g).
Proof.
  intros Hf [->|(h & c & -> & Hc)].
  - rewrite app_nil_r; auto.
  - right. exists (f ++ h), c. rewrite app_assoc. auto.
Qed.

Lemma terminated_tail f g : terminated (f ++ g) -> g <> [] -> terminated g.
Proof.
  intros [H|(h & c & H & Hc)] Hg.
  - apply app_eq_nil in H as [_ H]. contradiction.
  - right. destruct (@exists_last _ g Hg) as (g' & x & ->).
    rewrite app_assoc in H. apply app_inj_tail in H as [_ ->]. eauto.
Qed.

Lemma terminated_nobrk t : terminated t -> no_brk t = true -> t = [].
Proof.
  intros [->|(g & b & -> & Hb)] H; auto.
  unfold no_brk in H. rewrite forallb_app in H. cbn [forallb] in H. rewrite Hb in H.
  destruct (forallb _ g); discriminate.
Qed.

Lemma terminated_cases c f : terminated (c :: f) -> terminated f \/ (f = [] /\ brk c = true).
Proof.
  destruct f as [|d f].
  - left. left. reflexivity.
  - intro H. left. apply (terminated_tail [c]) in H; auto. discriminate.
Qed.

(** Every list splits as breaks, run, rest. *)
Lemma split_run l : exists bs run rest, l = bs ++ run ++ rest /\ forallb brk bs = true /\
  no_brk run = true /\ (run = [] -> rest = []) /\ (forall c r, rest = c :: r -> brk c = true) /\
  count_brk l = length bs /\ take_run (skipn (length bs) l) = run.
Proof.
  induction l as [|c l IH].
  - exists [], [], []. repeat split; auto. intros; discriminate.
  - destruct (brk c) eqn:Hc.
    + destruct IH as (bs & run & rest & -> & H1 & H2 & H3 & H4 & H5 & H6).
      exists (c :: bs), run, rest. cbn [app forallb count_brk length skipn].
      change (is_line_breaker c) with (brk c). rewrite Hc, H1, H5. repeat split; auto.
    + assert (exists run rest, l = run ++ rest /\ no_brk run = true /\
        (forall d r, rest = d :: r -> brk d = true) /\ take_run l = run)
        as (run & rest & E & H2 & H4 & H6).
      { clear IH. induction l as [|d l IHl].
        - exists [], []. repeat split; auto. intros; discriminate.
        - destruct (brk d) eqn:Hd.
          + exists [], (d :: l). cbn [take_run]. change (is_line_breaker d) with (brk d). rewrite Hd. repeat split; auto.
            intros x r H; injection H as -> _; auto.
          + destruct IHl as (run & rest & -> & A & B & C).
            exists (d :: run), rest. cbn [app take_run no_brk forallb].
            change (is_line_breaker d) with (brk d). rewrite Hd, C. repeat split; auto. }
      exists [], (c :: run), rest. subst l.
      cbn [app forallb count_brk length skipn take_run no_brk]. change (is_line_breaker c) with (brk c). rewrite Hc.
      repeat split; auto; try congruence.
Qed.

(** ** The iterator invariant *)

Section Iter.
Variable f : bytes.
Variable cap : nat.

(** Buffer contents mirror the file: the last [li_rem] bytes of the buffer are the file bytes just
    before the file position. *)
Definition FInv (it : file_iter) : Prop :=
  (fi_boff it + Z.of_nat (length (fi_buf it)) = Z.of_nat (fi_pos it))%Z /\
  fi_pos it <= length f /\
  fi_rem it = length f - fi_pos it /\
  0 < length (fi_buf it) /\
  (0 < fi_rem it -> length (fi_buf it) = cap).

Definition LInv (it : line_iter) : Prop :=
  FInv (li_fi it) /\
  li_rem it <= length (fi_buf (li_fi it)) /\
  li_rem it <= fi_pos (li_fi it) /\
  skipn (length (fi_buf (li_fi it)) - li_rem it) (fi_buf (li_fi it)) =
    firstn (li_rem it) (skipn (fi_pos (li_fi it) - li_rem it) f).

(** Position of the first unconsumed byte. *)
Definition lpos (it : line_iter) : nat := fi_pos (li_fi it) - li_rem it.
Definition pend (it : line_iter) : bytes := skipn (lpos it) f.
Definition plines (it : line_iter) : list (nat * bytes) := raw_lines (lpos it) [] (pend it).

Lemma set0_length b : length (set0 b) = length b.
Proof. destruct b; reflexivity. Qed.

(** file_iter::next with a rollback of the last [rb] buffer bytes. *)
Lemma fi_next_spec it rb :
  FInv it -> 0 < cap -> rb < length (fi_buf it) \/ rb = 0 -> rb <= fi_pos it ->
  skipn (length (fi_buf it) - rb) (fi_buf it) = firstn rb (skipn (fi_pos it - rb) f) ->
  forall n it', fi_next f it rb = (n, it') ->
  FInv it' /\
  (fi_rem it = 0 -> n = 0 /\ fi_pos it' = fi_pos it /\ fi_rem it' = 0) /\
  (0 < fi_rem it ->
     n = length (fi_buf it') /\ rb < n /\ fi_pos it < fi_pos it' /\
     fi_pos it' - n = fi_pos it - rb /\ n <= fi_pos it' /\
     fi_buf it' = firstn n (skipn (fi_pos it' - n) f)).
Proof.
  intros (I1 & I2 & I3 & I4 & I5) Hcap Hrb Hrbp Hbuf n it' E.
  unfold fi_next in E. destruct (Nat.eqb_spec (fi_rem it) 0) as [Hz|Hnz].
  - injection E as <- <-. cbn. split.
    + unfold FInv; cbn. rewrite set0_length. repeat split; auto.
    + split; [auto|]. lia.
  - assert (Hlen : length (fi_buf it) = cap) by (apply I5; lia).
    assert (Hrb2 : rb < length (fi_buf it)) by lia.
    injection E as E1 E2.
    rewrite (Nat.min_l rb) in E1, E2 by lia.
    set (size := length (fi_buf it)) in *.
    set (needed := Nat.min (fi_rem it) (size - rb)) in *.
    assert (Hneed : 0 < needed) by (unfold needed; lia).
    assert (Hdl : length (firstn needed (skipn (fi_pos it) f)) = needed).
    { rewrite firstn_length, skipn_length. unfold needed. lia. }
    assert (Hkl : length (skipn (size - rb) (fi_buf it)) = rb).
    { rewrite skipn_length. fold size. lia. }
    rewrite app_length, Hdl, Hkl in E1.
    assert (Hb' : fi_buf it' = skipn (size - rb) (fi_buf it) ++ firstn needed (skipn (fi_pos it) f))
      by (rewrite <- E2; reflexivity).
    assert (Hl' : length (fi_buf it') = rb + needed) by (rewrite Hb', app_length, Hdl, Hkl; reflexivity).
    assert (Hp' : fi_pos it' = fi_pos it + needed) by (rewrite <- E2; cbn [fi_pos]; rewrite Hdl; reflexivity).
    assert (Hr' : fi_rem it' = fi_rem it - needed) by (rewrite <- E2; cbn [fi_rem]; rewrite Hdl; reflexivity).
    assert (Ho' : fi_boff it' = (fi_boff it + Z.of_nat (size - rb))%Z) by (rewrite <- E2; reflexivity).
    assert (Hne : needed <= fi_rem it) by (unfold needed; lia).
    split; [|split].
    + unfold FInv. rewrite Hl', Hp', Hr', Ho'. repeat split; try lia.
    + lia.
    + intros _. subst n. rewrite Hl', Hp'. repeat split; try lia.
      rewrite Hb', Hbuf.
      replace (fi_pos it + needed - (rb + needed)) with (fi_pos it - rb) by lia.
      rewrite firstn_skipn_add. f_equal. f_equal. rewrite <- skipn_add. f_equal. lia.
Qed.

(** ** One loop iteration *)

Definition removed_in (rs : list nat) : nat -> bool := fun o => negb (too_big o) && mem_nat o rs.

Lemma removed_in_eq rs o : removed_in rs o = negb (too_big o) && mem_nat o rs.
Proof. reflexivity. Qed.

(** Whether the next raw line must be left out of the deleted count because it is the tag. *)
Definition skip_tag (it : line_iter) (ls : list (nat * bytes)) : bool :=
  match ls with
  | (_, t) :: _ => li_eating it || (li_first it && prefixb CTAG t)
  | [] => false
  end.

Definition pending_deleted (it : line_iter) : nat :=
  let ls := plines it in
  if skip_tag it ls then deleted_lines (removed_in (li_removals it)) (tl ls)
  else deleted_lines (removed_in (li_removals it)) ls.

(** The first line of the file, if it starts with '|', is a tag (or a time stamp). *)
Definition first_ok (it : line_iter) : Prop :=
  match plines it with
  | (_, t) :: _ =>
      (li_first it = true -> bar_line t = true -> prefixb CTAG t = true) /\
      (li_eating it = true -> prefixb CTAG t = true)
  | [] => True
  end.

Definition measure (it : line_iter) : nat :=
  (length f - lpos it) + (length f - fi_pos (li_fi it)).

Definition Good (it : line_iter) : Prop :=
  LInv it /\ terminated (pend it) /\ lines_fit cap (plines it) /\
  (li_eating it = true -> match plines it with (_, t) :: _ => bar_line t = true | [] => True end).

Lemma ctag_not_time t : prefixb CTAG t = true -> time_line t = false.
Proof.
  intro H. apply prefixb_iff in H as [r ->]. reflexivity.
Qed.

Lemma time_is_bar t : time_line t = true -> bar_line t = true.
Proof. intro H. apply prefixb_iff in H as [r ->]. reflexivity. Qed.

Lemma ctag_is_bar t : prefixb CTAG t = true -> bar_line t = true.
Proof. intro H. apply prefixb_iff in H as [r ->]. reflexivity. Qed.

Lemma firstn_nobrk n t : no_brk t = true -> no_brk (firstn n t) = true.
Proof.
  revert n; induction t as [|c t IH]; intros [|n] H; auto.
  cbn [firstn no_brk forallb] in *. apply andb_true_iff in H as [H1 H2].
  rewrite H1. apply IH; auto.
Qed.

Lemma skipn_firstn_app {A} n (l : list A) : l = firstn n l ++ skipn n l.
Proof. symmetry; apply firstn_skipn. Qed.

(** Description of a state after consuming [k] bytes of the buffer. *)
Lemma LInv_consume fi k rem : 
  FInv fi -> rem <= length (fi_buf fi) -> rem <= fi_pos fi ->
  skipn (length (fi_buf fi) - rem) (fi_buf fi) = firstn rem (skipn (fi_pos fi - rem) f) ->
  k <= rem ->
  skipn (length (fi_buf fi) - (rem - k)) (fi_buf fi) =
    firstn (rem - k) (skipn (fi_pos fi - (rem - k)) f).
Proof.
  intros HF H1 H2 H3 Hk.
  replace (length (fi_buf fi) - (rem - k)) with ((length (fi_buf fi) - rem) + k) by lia.
  rewrite skipn_add, H3. rewrite skipn_firstn_comm. f_equal.
  rewrite <- skipn_add. f_equal. lia.
Qed.

Lemma take_run_nobrk t rest : no_brk t = true -> (forall c r, rest = c :: r -> brk c = true) ->
  take_run (t ++ rest) = t.
Proof.
  intros Ht Hr. induction t as [|c t IH]; cbn [app].
  - destruct rest as [|c r]; auto. cbn [take_run]. change (is_line_breaker c) with (brk c).
    rewrite (Hr c r eq_refl). reflexivity.
  - cbn [no_brk forallb] in Ht. apply andb_true_iff in Ht as [Hc Ht]. apply negb_true_iff in Hc.
    cbn [take_run]. change (is_line_breaker c) with (brk c). rewrite Hc, IH; auto.
Qed.

(** The first line of a terminated text starting with a non-empty run. *)
Lemma raw_head o run more : run <> [] -> no_brk run = true -> terminated (run ++ more) ->
  exists m b post, more = m ++ b :: post /\ no_brk m = true /\ brk b = true /\
    raw_lines o [] (run ++ more) =
      (o, run ++ m) :: raw_lines (o + length (run ++ m)) [] (b :: post).
Proof.
  intros Hne Hnb Ht.
  destruct (split_run (run ++ more)) as (bs & r & rest & E & H1 & H2 & H3 & H4 & H5 & H6).
  assert (bs = []) as ->.
  { destruct run as [|c run]; [congruence|]. destruct bs as [|b bs]; auto.
    injection E as -> _. cbn [forallb no_brk] in *. destruct (brk b); discriminate. }
  cbn [app length skipn] in *.
  assert (Hrest : rest <> []).
  { intros ->. rewrite app_nil_r in E. rewrite E in Ht. apply terminated_nobrk in Ht; auto.
    subst r. destruct run; [congruence|discriminate]. }
  destruct rest as [|b post]; [congruence|].
  assert (Hb : brk b = true) by (eapply H4; reflexivity).
  assert (exists m, r = run ++ m /\ more = m ++ b :: post) as (m & -> & ->).
  { clear H6 H5 H4 H3 H1 Ht Hrest Hne o. revert r E H2. induction run as [|c run IH]; intros r E H2.
    - exists r. auto.
    - cbn [no_brk forallb] in Hnb. apply andb_true_iff in Hnb as [Hc Hnb].
      destruct r as [|d r].
      + cbn [app] in E. injection E as -> _. rewrite Hb in Hc; discriminate.
      + cbn [app] in E. injection E as -> E. cbn [no_brk forallb] in H2.
        apply andb_true_iff in H2 as [_ H2].
        destruct (IH Hnb r E H2) as (m & -> & ->). exists m. auto. }
  unfold no_brk in H2. rewrite forallb_app in H2. apply andb_true_iff in H2 as [_ Hm].
  exists m, b, post. repeat split; auto.
  assert (Hnn : no_brk (run ++ m) = true) by (unfold no_brk; rewrite forallb_app; apply andb_true_iff; auto).
  rewrite E. rewrite (raw_lines_run o [] (run ++ m) b post Hnn Hb).
  - cbn [length app]. rewrite Nat.sub_0_r. reflexivity.
  - cbn [app]. destruct run; [congruence|discriminate].
Qed.

Lemma prefixb_ctag_app run m : 6 <= length run -> prefixb CTAG (run ++ m) = prefixb CTAG run.
Proof.
  intro H. do 6 (destruct run as [|? run]; [simpl in H; lia|]).
  reflexivity.
Qed.

Lemma deleted_lines_cons rm l ls :
  deleted_lines rm (l :: ls) = (if is_deleted rm l then 1 else 0) + deleted_lines rm ls.
Proof. unfold deleted_lines; cbn [filter]. destruct (is_deleted rm l); reflexivity. Qed.

Lemma LInv_window it : LInv it ->
  exists after, pend it = firstn (li_rem it) (pend it) ++ after /\
    after = skipn (fi_pos (li_fi it)) f /\ length (firstn (li_rem it) (pend it)) = li_rem it.
Proof.
  intros (HF & H1 & H2 & H3). destruct HF as (F1 & F2 & F3 & F4 & F5).
  exists (skipn (fi_pos (li_fi it)) f). unfold pend, lpos. repeat split.
  - replace (skipn (fi_pos (li_fi it)) f) with
      (skipn (li_rem it) (skipn (fi_pos (li_fi it) - li_rem it) f)).
    + symmetry. apply firstn_skipn.
    + rewrite <- skipn_add. f_equal. lia.
  - rewrite firstn_length, skipn_length. lia.
Qed.

(** Effect of the loop condition "m_remaining || provision()". *)
Lemma head_provision it : LInv it -> 0 < cap ->
  forall rem0 fi0,
  (if Nat.eqb (li_rem it) 0 then fi_next f (li_fi it) 0 else (li_rem it, li_fi it)) = (rem0, fi0) ->
  let it0 := mkLI fi0 rem0 (li_del it) (li_first it) (li_eating it) (li_removals it) in
  LInv it0 /\ fi_pos (li_fi it) <= fi_pos fi0 /\
  (rem0 = 0 -> lpos it = length f /\ lpos it0 = length f) /\
  (0 < rem0 -> lpos it0 = lpos it).
Proof.
  intros HI Hcap rem0 fi0 E it0. destruct HI as (HF & H1 & H2 & H3).
  destruct (Nat.eqb_spec (li_rem it) 0) as [Hz|Hnz].
  - destruct (fi_next_spec (li_fi it) 0 HF Hcap (or_intror eq_refl) (Nat.le_0_l _)) with
      (n := rem0) (it' := fi0) as (HF' & Ha & Hb); auto.
    { rewrite Nat.sub_0_r, skipn_all. reflexivity. }
    destruct (Nat.eq_dec (fi_rem (li_fi it)) 0) as [Hr|Hr].
    + destruct (Ha Hr) as (-> & Hp & Hr'). unfold it0.
      destruct HF as (F1 & F2 & F3 & F4 & F5).
      split; [|split; [|split]].
      * split; [exact HF'|]. cbn [li_fi li_rem]. split; [lia|]. split; [lia|].
        rewrite Nat.sub_0_r, skipn_all. reflexivity.
      * lia.
      * intros _. unfold lpos. cbn [li_fi li_rem]. lia.
      * lia.
    + destruct Hb as (B1 & B2 & B3 & B4 & B5 & B6); [lia|].
      unfold it0. split; [|split; [|split]].
      * split; [exact HF'|]. cbn [li_fi li_rem]. split; [lia|]. split; [lia|].
        rewrite B1 at 1. rewrite Nat.sub_diag. cbn [skipn]. exact B6.
      * lia.
      * lia.
      * unfold lpos. cbn [li_fi li_rem]. lia.
  - injection E as <- <-. unfold it0. split; [|split; [|split]]; try lia.
    + split; [exact HF|]. cbn [li_fi li_rem]. auto.
    + unfold lpos. cbn [li_fi li_rem]. auto.
Qed.

Definition step_spec (it : line_iter) (ts : option (nat * bytes)) (o : li_out) : Prop :=
  let rm := removed_in (li_removals it) in
  match o with
  | LDone it' =>
      plines it = [] /\ li_del it' = li_del it /\ li_removals it' = li_removals it
  | LCont it' ts' =>
      Good it' /\ measure it' < measure it /\ li_removals it' = li_removals it /\
      lpos it <= lpos it' /\
      visible_from rm ts (plines it) = visible_from rm ts' (plines it') /\
      (first_ok it -> first_ok it' /\
         li_del it + pending_deleted it = li_del it' + pending_deleted it')
  | LLine it' off text ts' =>
      Good it' /\ measure it' < measure it /\ li_removals it' = li_removals it /\
      lpos it <= off /\ lpos it' = off + length text /\ text <> [] /\
      In (off, text) (plines it) /\
      visible_from rm ts (plines it) = mkV off text ts' :: visible_from rm None (plines it') /\
      (first_ok it -> first_ok it' /\
         li_del it + pending_deleted it = li_del it' + pending_deleted it')
  end.

Lemma skipn_window (W : bytes) fi rem (E : skipn (length (fi_buf fi) - rem) (fi_buf fi) = W) bs tail :
  W = bs ++ tail -> rem <= length (fi_buf fi) ->
  skipn (length (fi_buf fi) - rem + length bs) (fi_buf fi) = tail.
Proof. intros HW Hr. rewrite skipn_add, E, HW. apply skipn_app_exact; reflexivity. Qed.

Lemma first_ok_flags it ls first eating :
  plines it = ls -> li_first it = first -> li_eating it = eating ->
  (match ls with
   | (_, t) :: _ => (first = true -> bar_line t = true -> prefixb CTAG t = true) /\
                    (eating = true -> prefixb CTAG t = true)
   | [] => True
   end) -> first_ok it.
Proof. intros H1 H2 H3 H. unfold first_ok. rewrite H1, H2, H3. exact H. Qed.

Lemma step_ok it ts : Good it -> 0 < cap -> step_spec it ts (li_step f it ts).
Proof.
  intros (HI & Hterm & Hfit & Heb) Hcap. unfold li_step.
  destruct (if Nat.eqb (li_rem it) 0 then fi_next f (li_fi it) 0 else (li_rem it, li_fi it))
    as [rem0 fi0] eqn:E0.
  destruct (head_provision it HI Hcap rem0 fi0 E0) as (HI0 & Hpos & Hz & Hp).
  set (it0 := mkLI fi0 rem0 (li_del it) (li_first it) (li_eating it) (li_removals it)) in *.
  destruct (Nat.eqb_spec rem0 0) as [Hrz|Hrnz].
  { (* end of file *)
    cbn [step_spec]. repeat split; auto. unfold plines, pend.
    destruct (Hz Hrz) as [-> _]. rewrite skipn_all. reflexivity. }
  assert (Hlp : lpos it0 = lpos it) by (apply Hp; lia). clear Hz Hp E0.
  assert (Hpend : pend it0 = pend it) by (unfold pend; rewrite Hlp; reflexivity).
  destruct (LInv_window it0 HI0) as (after & Hpe & Haft & Hwl).
  destruct HI0 as (HF0 & H01 & H02 & H03). cbn [it0 li_fi li_rem] in *.
  set (W := firstn rem0 (pend it0)) in *.
  assert (HW : skipn (length (fi_buf fi0) - rem0) (fi_buf fi0) = W) by exact H03.
  destruct (split_run W) as (bs & run & rest & EW & Hbs & Hrun & Hrr & Hrest & Hcb & Htr).
  set (p := lpos it) in *.
  assert (Hwl2 : rem0 = length bs + length run + length rest).
  { rewrite <- Hwl, EW, !app_length. lia. }
  assert (Htail : skipn (length (fi_buf fi0) - rem0 + length bs) (fi_buf fi0) = run ++ rest).
  { eapply skipn_window; eauto. }
  rewrite HW, Hcb, Htail.
  rewrite EW, skipn_app_exact in Htr by reflexivity.
  rewrite Htr.
  set (start := length (fi_buf fi0) - rem0 + length bs) in *.
  assert (Hlast : length (fi_buf fi0) = start + length run + length rest) by (unfold start; lia).
  assert (Hp0 : p = fi_pos fi0 - rem0) by (unfold lpos in Hlp; cbn in Hlp; unfold p; lia).
  assert (Hpl : plines it = raw_lines (p + length bs) [] (run ++ rest ++ after)).
  { unfold plines. fold p. rewrite <- Hpend, Hpe, EW.
    rewrite <- app_assoc. rewrite raw_lines_brks by auto. rewrite <- app_assoc. reflexivity. }
  assert (Hpendit : pend it = bs ++ run ++ rest ++ after).
  { rewrite <- Hpend, Hpe, EW, <- !app_assoc. reflexivity. }
  assert (Hoff : Z.to_nat (fi_boff fi0 + Z.of_nat start) = p + length bs).
  { destruct HF0 as (F1 & _). unfold start. lia. }
  assert (Hpf : p + rem0 <= length f) by (destruct HF0 as (_ & F2 & _); lia).
  assert (Hterm2 : run <> [] -> terminated (run ++ rest ++ after)).
  { intro Hne. rewrite Hpendit in Hterm. apply terminated_tail in Hterm; auto.
    destruct run; [congruence|discriminate]. }
  assert (Hskip : skipn (p + length bs) f = run ++ rest ++ after).
  { rewrite skipn_add. change (skipn p f) with (pend it). rewrite Hpendit.
    apply skipn_app_exact; reflexivity. }
  destruct rest as [|b post].
  - (* the run reaches the end of the buffer *)
    cbn [length app] in *. rewrite !Nat.add_0_r in *. rewrite app_nil_r in *.
    replace (start + length run =? length (fi_buf fi0)) with true by (symmetry; apply Nat.eqb_eq; lia).
    destruct (Nat.eqb_spec start 0) as [Hs0|Hs0].
    + (* impossible: a line as long as the buffer *)
      exfalso. assert (Hrne : run <> []).
      { intros ->. cbn in *. destruct HF0 as (_ & _ & _ & F4 & _). lia. }
      assert (Hb0 : bs = []) by (destruct bs; auto; unfold start in Hs0; cbn in Hs0; lia).
      destruct (raw_head (p + length bs) run after Hrne Hrun (Hterm2 Hrne))
        as (m & b & post & -> & Hm & Hb & Hraw).
      rewrite Hpl, Hraw in Hfit. pose proof (Forall_inv Hfit) as Hl. cbn in Hl.
      rewrite app_length in Hl.
      destruct HF0 as (F1 & F2 & F3 & F4 & F5).
      assert (0 < fi_rem fi0).
      { rewrite F3. rewrite <- skipn_length. rewrite <- Haft, app_length. cbn. lia. }
      specialize (F5 H). lia.
    + cbn [andb negb].
      replace (rem0 - length bs) with (length run) by lia.
      destruct (fi_next f fi0 (length run)) as [rem' fi'] eqn:E1.
      destruct (fi_next_spec fi0 (length run) HF0 Hcap) with (n := rem') (it' := fi')
        as (HF' & Ha & Hb); auto; try lia.
      { replace (length (fi_buf fi0) - length run) with start by lia.
        rewrite Htail.
        replace (fi_pos fi0 - length run) with (p + length bs) by lia.
        rewrite Hskip. rewrite firstn_app_exact; auto. }
      set (it' := mkLI fi' rem' (li_del it) _ _ (li_removals it)).
      cbn [step_spec].
      destruct (Nat.eq_dec (fi_rem fi0) 0) as [Hr|Hr].
      * (* end of file: nothing but breaks was left *)
        destruct (Ha Hr) as (-> & Hp' & Hr').
        assert (after = []) as ->.
        { rewrite Haft. apply skipn_all2. destruct HF0 as (_ & _ & F3 & _). lia. }
        assert (run = []) as ->.
        { destruct run as [|c run]; auto. assert (T : terminated (c :: run)).
          { specialize (Hterm2 ltac:(discriminate)). cbn in Hterm2. rewrite app_nil_r in Hterm2. exact Hterm2. }
          apply terminated_nobrk in T; auto. }
        cbn [length app] in *.
        assert (Hpl' : plines it' = []).
        { unfold plines, pend, lpos. cbn [it' li_fi li_rem]. rewrite Hp', Nat.sub_0_r.
          rewrite <- Haft. reflexivity. }
        assert (Hlp' : lpos it' = length f).
        { unfold lpos. cbn [it' li_fi li_rem]. destruct HF0 as (_ & _ & F3 & _). lia. }
        rewrite Hpl', Hpl. cbn [raw_lines visible_from].
        unfold first_ok, pending_deleted. rewrite Hpl', Hpl. cbn [raw_lines].
        split; [|split; [|split; [|split; [|split]]]]; auto.
        -- split; [|split; [|split]].
           ++ split; [exact HF'|]. cbn [it' li_fi li_rem]. split; [lia|]. split; [lia|].
              rewrite Nat.sub_0_r, skipn_all. reflexivity.
           ++ unfold pend. rewrite Hlp', skipn_all. left; reflexivity.
           ++ rewrite Hpl'. constructor.
           ++ rewrite Hpl'. auto.
        -- unfold measure. fold p. rewrite Hlp'. cbn [it' li_fi]. lia.
        -- rewrite Hlp'. fold p. lia.
      * destruct Hb as (B1 & B2 & B3 & B4 & B5 & B6); [lia|].
        assert (Hlp' : lpos it' = p + length bs).
        { unfold lpos. cbn [it' li_fi li_rem]. lia. }
        assert (Hpd' : pend it' = run ++ after) by (unfold pend; rewrite Hlp'; exact Hskip).
        assert (Hpl' : plines it' = plines it).
        { unfold plines at 1. rewrite Hpd', Hlp', Hpl. reflexivity. }
        split; [|split; [|split; [|split; [|split]]]].
        -- split; [|split; [|split]].
           ++ split; [exact HF'|]. cbn [it' li_fi li_rem]. split; [lia|]. split; [lia|].
              rewrite B1 at 1. rewrite Nat.sub_diag. cbn [skipn]. exact B6.
           ++ rewrite Hpd'. destruct run as [|c run].
              ** cbn [app]. rewrite Hpendit in Hterm. cbn [app] in Hterm.
                 destruct after as [|a after]; [left; reflexivity|].
                 apply terminated_tail in Hterm; auto. discriminate.
              ** apply Hterm2. discriminate.
           ++ rewrite Hpl'. exact Hfit.
           ++ rewrite Hpl'. destruct run as [|c run].
              ** cbn [it' li_eating]. cbn [length] in Hlast. rewrite Nat.add_0_r in Hlast.
                 rewrite Hlast, Nat.eqb_refl. cbn [negb andb]. exact Heb.
              ** cbn [it' li_eating]. destruct (raw_head (p + length bs) (c :: run) after ltac:(discriminate) Hrun
                   (Hterm2 ltac:(discriminate))) as (m & b & post & -> & Hm & Hbb & Hraw).
                 replace (start =? length (fi_buf fi0)) with false
                   by (symmetry; apply Nat.eqb_neq; cbn [length] in Hlast; lia).
                 cbn [negb andb]. intro He. rewrite Hpl in *. cbn [app] in *. rewrite Hraw in *.
                 cbn [app bar_line]. destruct (Ascii.eqb c BAR) eqn:Ec; auto.
                 rewrite andb_false_r in He. apply Heb in He. cbn in He. congruence.
        -- unfold measure. rewrite Hlp'. fold p. cbn [it' li_fi].
           destruct HF' as (_ & F2' & _). lia.
        -- reflexivity.
        -- rewrite Hlp'. fold p. lia.
        -- rewrite Hpl'. reflexivity.
        -- intro Hok.
           destruct run as [|c run].
           ++ (* nothing found in the buffer *)
              cbn [length] in Hlast. rewrite Nat.add_0_r in Hlast.
              assert (Hfl : li_first it' = li_first it /\ li_eating it' = li_eating it).
              { cbn [it' li_first li_eating]. rewrite Hlast, Nat.eqb_refl. cbn [negb andb]. auto. }
              destruct Hfl as [Hf1 He1].
              split.
              ** unfold first_ok in *. rewrite Hpl', Hf1, He1. exact Hok.
              ** unfold pending_deleted, skip_tag. rewrite Hpl', Hf1, He1. reflexivity.
           ++ destruct (raw_head (p + length bs) (c :: run) after ltac:(discriminate) Hrun
                (Hterm2 ltac:(discriminate))) as (m & b & post & -> & Hm & Hbb & Hraw).
              assert (Hplr : plines it = (p + length bs, (c :: run) ++ m) ::
                 raw_lines (p + length bs + length ((c :: run) ++ m)) [] (b :: post))
                by (rewrite Hpl; exact Hraw).
              unfold first_ok in Hok. rewrite Hplr in Hok.
              assert (Hfl : li_first it' = false).
              { cbn [it' li_first]. replace (start =? length (fi_buf fi0)) with false; auto.
                symmetry. apply Nat.eqb_neq. cbn [length] in Hlast. lia. }
              assert (Heat : li_eating it' = li_eating it || (li_first it && prefixb CTAG ((c :: run) ++ m))).
              { cbn [it' li_eating]. replace (start =? length (fi_buf fi0)) with false
                  by (symmetry; apply Nat.eqb_neq; cbn [length] in Hlast; lia).
                cbn [negb andb].
                destruct Hok as [Hok1 Hok2].
                destruct (li_first it) eqn:Ef; cbn [andb].
                - destruct (Ascii.eqb c BAR) eqn:Ec.
                  + specialize (Hok1 eq_refl Ec). rewrite Hok1. rewrite orb_true_r.
                    destruct (Nat.ltb_spec (length (fi_buf fi0) - start) 6) as [Hl6|Hl6]; auto.
                    cbn [orb]. change ctag_prefix with CTAG.
                    rewrite <- (prefixb_ctag_app (c :: run) m) by lia. exact Hok1.
                  + destruct (prefixb CTAG ((c :: run) ++ m)) eqn:Ep.
                    * apply ctag_is_bar in Ep. cbn in Ep. rewrite Ep in Ec. discriminate.
                    * rewrite orb_false_r. reflexivity.
                - rewrite orb_false_r. reflexivity. }
              split.
              ** unfold first_ok. rewrite Hpl', Hplr, Hfl. split; [discriminate|].
                 rewrite Heat. intro H. apply orb_true_iff in H as [H|H].
                 --- apply Hok. exact H.
                 --- apply andb_true_iff in H. apply H.
              ** unfold pending_deleted, skip_tag. rewrite Hpl', Hplr, Hfl. cbn [andb].
                 rewrite orb_false_r, Heat. reflexivity.
  - (* a complete line in the buffer *)
    assert (Hb : brk b = true) by (eapply Hrest; reflexivity).
    assert (Hrne : run <> []) by (intros ->; specialize (Hrr eq_refl); discriminate).
    cbn [length] in *.
    assert (Hplr : plines it = (p + length bs, run) ::
              raw_lines (p + length bs + length run) [] (b :: post ++ after)).
    { rewrite Hpl. cbn [app]. rewrite raw_lines_run; auto.
      cbn [length app]. rewrite Nat.sub_0_r. reflexivity. }
    replace (start + length run =? length (fi_buf fi0)) with false by (symmetry; apply Nat.eqb_neq; lia).
    cbn [andb].
    replace (start =? length (fi_buf fi0)) with false by (symmetry; apply Nat.eqb_neq; lia).
    cbn [negb andb].
    destruct run as [|c run]; [congruence|]. cbn [app] in *.
    rewrite Hoff.
    set (rem2 := rem0 - length bs - length (c :: run)).
    assert (Hrem2 : rem2 = S (length post)) by (unfold rem2; cbn [length] in *; lia).
    set (mk := fun del => mkLI fi0 rem2 del false false (li_removals it)).
    assert (Hlp' : forall d, lpos (mk d) = p + length bs + length (c :: run)).
    { intro d. unfold lpos. cbn [mk li_fi li_rem]. cbn [length] in *. lia. }
    assert (Hpd' : forall d, pend (mk d) = b :: post ++ after).
    { intro d. unfold pend. rewrite Hlp', skipn_add, Hskip.
      change (c :: run ++ b :: post ++ after) with ((c :: run) ++ b :: post ++ after).
      apply skipn_app_exact. reflexivity. }
    assert (Hpl' : forall d, plines (mk d) =
       raw_lines (p + length bs + length (c :: run)) [] (b :: post ++ after)).
    { intro d. unfold plines. rewrite Hpd', Hlp'. reflexivity. }
    assert (HG' : forall d, Good (mk d)).
    { intro d. split; [|split; [|split]]; [| | |intro Hd; discriminate Hd].
      - split; [exact HF0|]. cbn [mk li_fi li_rem]. cbn [length] in *. split; [lia|]. split; [lia|].
        rewrite Hrem2. replace (S (length post)) with (rem0 - (length bs + S (length run))) by lia.
        apply LInv_consume; auto; lia.
      - rewrite Hpd'. rewrite Hpendit in Hterm.
        change (bs ++ c :: run ++ b :: post ++ after) with (bs ++ (c :: run) ++ b :: post ++ after) in Hterm.
        rewrite app_assoc in Hterm. apply terminated_tail in Hterm; auto. discriminate.
      - rewrite Hpl'. rewrite Hplr in Hfit. inversion Hfit; auto. }
    assert (Hmeas : forall d, measure (mk d) < measure it).
    { intro d. unfold measure. rewrite Hlp'. fold p. cbn [mk li_fi length]. cbn [length] in *. lia. }
    assert (Hok' : forall d, first_ok (mk d)).
    { intro d. unfold first_ok. rewrite Hpl'.
      destruct (raw_lines (p + length bs + length (c :: run)) [] (b :: post ++ after)) as [|[? ?] ?]; auto.
      unfold mk; cbn [li_first li_eating]. split; intros; discriminate. }
    assert (Hpdel : forall d, pending_deleted (mk d) = deleted_lines (removed_in (li_removals it))
       (raw_lines (p + length bs + length (c :: run)) [] (b :: post ++ after))).
    { intro d. unfold pending_deleted, skip_tag. rewrite Hpl'. unfold mk; cbn [li_first li_eating li_removals].
      destruct (raw_lines (p + length bs + length (c :: run)) [] (b :: post ++ after)) as [|[? ?] ?]; reflexivity. }
    (* the flag of this line *)
    set (eating := if li_first it && Ascii.eqb c BAR
                   then (length (fi_buf fi0) - start <? 6) || prefixb ctag_prefix (c :: run ++ b :: post)
                   else li_eating it).
    assert (Heat : first_ok it -> eating = li_eating it || (li_first it && prefixb CTAG (c :: run))).
    { intro Hok. unfold first_ok in Hok. rewrite Hplr in Hok. destruct Hok as [Hok1 Hok2].
      unfold eating. destruct (li_first it) eqn:Ef; cbn [andb].
      - destruct (Ascii.eqb c BAR) eqn:Ec.
        + specialize (Hok1 eq_refl Ec). rewrite Hok1, orb_true_r.
          assert (prefixb ctag_prefix (c :: run ++ b :: post) = true) as ->.
          { change ctag_prefix with CTAG. apply prefixb_iff in Hok1 as [r Hr].
            change (c :: run ++ b :: post) with ((c :: run) ++ b :: post). rewrite Hr.
            rewrite <- app_assoc. apply prefixb_app. }
          apply orb_true_r.
        + destruct (prefixb CTAG (c :: run)) eqn:Ep.
          * apply ctag_is_bar in Ep. cbn in Ep. rewrite Ep in Ec. discriminate.
          * rewrite orb_false_r. reflexivity.
      - rewrite orb_false_r. reflexivity. }
    assert (Hcount : first_ok it -> pending_deleted it =
       (if eating then 0 else if is_deleted (removed_in (li_removals it)) (p + length bs, c :: run) then 1 else 0)
       + pending_deleted (mk 0)).
    { intro Hok. rewrite Hpdel. unfold pending_deleted, skip_tag. rewrite Hplr. rewrite <- (Heat Hok).
      cbn [tl]. destruct eating; [reflexivity|]. rewrite deleted_lines_cons. reflexivity. }
    assert (Hpd0 : forall d, pending_deleted (mk d) = pending_deleted (mk 0)) by (intro d; rewrite !Hpdel; reflexivity).
    assert (Hetime : first_ok it -> eating = true -> prefixb CTAG (c :: run) = true).
    { intros Hok He. rewrite (Heat Hok) in He. unfold first_ok in Hok. rewrite Hplr in Hok.
      apply orb_true_iff in He as [He|He]; [apply Hok; auto|apply andb_true_iff in He; apply He]. }
    change (Ascii.eqb c BAR) with (bar_line (c :: run)) in *.
    change time_prefix with TIME.
    change (prefixb TIME (c :: run)) with (time_line (c :: run)).
    destruct (time_line (c :: run)) eqn:Etime.
    + rewrite (time_is_bar _ Etime). cbn [andb].
      change (mkLI fi0 rem2 (li_del it) false false (li_removals it)) with (mk (li_del it)).
      cbn [step_spec].
      split; [apply HG'|]. split; [apply Hmeas|]. split; [reflexivity|].
      split; [rewrite Hlp'; fold p; lia|]. split.
      * rewrite Hplr, Hpl'. cbn [visible_from]. rewrite Etime. reflexivity.
      * intro Hok. split; [apply Hok'|].
        rewrite (Hcount Hok), (Hpd0 (li_del it)). cbn [mk li_del].
        unfold is_deleted. cbn [snd fst]. rewrite Etime. cbn [negb andb].
        destruct eating; reflexivity.
    + rewrite andb_false_r.
      replace (if li_first it && bar_line (c :: run) then _ else _) with eating by reflexivity.
      rewrite <- removed_in_eq.
      destruct (bar_line (c :: run) || eating || removed_in (li_removals it) (p + length bs)) eqn:Edel.
      * set (d := if eating then li_del it else S (li_del it)).
        change (mkLI fi0 rem2 d false false (li_removals it)) with (mk d).
        cbn [step_spec].
        split; [apply HG'|]. split; [apply Hmeas|]. split; [reflexivity|].
        split; [rewrite Hlp'; fold p; lia|]. split.
        -- rewrite Hplr, Hpl'. cbn [visible_from]. rewrite Etime.
           destruct (bar_line (c :: run)) eqn:Ebar; auto.
           assert (Heat' : eating = li_eating it).
           { unfold eating. rewrite andb_false_r. reflexivity. }
           cbn [orb] in Edel. rewrite Heat' in Edel.
           destruct (removed_in (li_removals it) (p + length bs)) eqn:Erm; auto.
           rewrite orb_false_r in Edel. specialize (Heb Edel). rewrite Hplr in Heb. congruence.
        -- intro Hok. split; [apply Hok'|].
           rewrite (Hcount Hok), (Hpd0 d). unfold d. cbn [mk li_del].
           unfold is_deleted. cbn [snd fst]. rewrite Etime. cbn [negb andb].
           destruct eating eqn:Ee; cbn [li_del mk]; try lia.
           replace (bar_line (c :: run) || removed_in (li_removals it) (p + length bs)) with true; [lia|].
           rewrite orb_false_r in Edel. symmetry; exact Edel.
      * apply orb_false_iff in Edel as [Edel E3]. apply orb_false_iff in Edel as [E1 E2].
        rewrite E1.
        change (mkLI fi0 rem2 (li_del it) false false (li_removals it)) with (mk (li_del it)).
        cbn [step_spec].
        split; [apply HG'|]. split; [apply Hmeas|]. split; [reflexivity|].
        split; [fold p; lia|]. split; [rewrite Hlp'; reflexivity|]. split; [discriminate|].
        split; [rewrite Hplr; left; reflexivity|].
        split.
        -- rewrite Hplr, Hpl'. cbn [visible_from]. rewrite Etime, E1, E3. reflexivity.
        -- intro Hok. split; [apply Hok'|].
           rewrite (Hcount Hok), (Hpd0 (li_del it)). cbn [mk li_del].
           unfold is_deleted. cbn [snd fst]. rewrite Etime, E1, E2, E3. reflexivity.
Qed.

(** ** next() and complete reads *)

Definition result_spec (it : line_iter) (ts : option (nat * bytes)) (o : li_result) : Prop :=
  let rm := removed_in (li_removals it) in
  match o with
  | RFuel => False
  | REnd it' =>
      visible_from rm ts (plines it) = [] /\ li_removals it' = li_removals it /\
      (first_ok it -> li_del it' = li_del it + pending_deleted it)
  | RLine it' off text ts' =>
      Good it' /\ measure it' < measure it /\ li_removals it' = li_removals it /\
      lpos it <= off /\ lpos it' = off + length text /\ text <> [] /\
      visible_from rm ts (plines it) = mkV off text ts' :: visible_from rm None (plines it') /\
      (first_ok it -> first_ok it' /\
         li_del it + pending_deleted it = li_del it' + pending_deleted it')
  end.

Lemma li_loop_ok fuel it ts : Good it -> 0 < cap -> measure it < fuel ->
  result_spec it ts (li_loop fuel f it ts).
Proof.
  revert it ts; induction fuel as [|k IH]; intros it ts HG Hcap Hm; [lia|].
  cbn [li_loop]. pose proof (step_ok it ts HG Hcap) as Hs.
  destruct (li_step f it ts) as [it'|it' ts'|it' off text ts']; cbn [step_spec result_spec] in *.
  - destruct Hs as (H1 & H2 & H3). rewrite H1. repeat split; auto.
    intro Hok. unfold pending_deleted, skip_tag. rewrite H1. cbn. lia.
  - destruct Hs as (H1 & H2 & H3 & H4 & H5 & H6).
    specialize (IH it' ts' H1 Hcap ltac:(lia)).
    destruct (li_loop k f it' ts') as [|it2|it2 off text ts2]; cbn [result_spec] in *; auto.
    + destruct IH as (I1 & I2 & I3). rewrite H5, <- H3. repeat split; auto; try congruence.
      intro Hok. destruct (H6 Hok) as [Ha Hb]. rewrite I3; auto; lia.
    + destruct IH as (I1 & I2 & I3 & I4 & I5 & I6 & I7 & I8). rewrite H5, <- H3.
      split; [exact I1|]. split; [lia|]. split; [congruence|]. split; [lia|]. split; [lia|].
      split; [exact I6|]. split; [exact I7|].
      intro Hok. destruct (H6 Hok) as [Ha Hb]. destruct (I8 Ha) as [Hd Hc]. split; [exact Hd|lia].
  - destruct Hs as (H1 & H2 & H3 & H4 & H5 & H6 & H7 & H8 & H9). tauto.
Qed.

Definition to_v (e : entry) : ventry := mkV (e_off e) (e_text e) (e_ts e).

Lemma li_collect_ok n fuel it : Good it -> 0 < cap -> measure it < fuel ->
  length f - lpos it < n ->
  exists es d, li_collect n fuel f it = Some (es, d) /\
    map to_v es = visible_from (removed_in (li_removals it)) None (plines it) /\
    (first_ok it -> d = li_del it + pending_deleted it).
Proof.
  revert it; induction n as [|k IH]; intros it HG Hcap Hm Hn; [lia|].
  cbn [li_collect]. unfold li_next. pose proof (li_loop_ok fuel it None HG Hcap Hm) as Hr.
  destruct (li_loop fuel f it None) as [|it'|it' off text ts']; cbn [result_spec] in Hr.
  - contradiction.
  - destruct Hr as (H1 & H2 & H3). exists [], (li_del it'). rewrite H1. repeat split; auto.
  - destruct Hr as (H1 & H2 & H3 & H4 & H5 & H6 & H7 & H8).
    assert (lpos it' <= length f).
    { destruct H1 as ((HF & _ & _ & _) & _). destruct HF as (_ & F2 & _). unfold lpos. lia. }
    destruct (IH it' H1 Hcap ltac:(lia)) as (es & d & E & Hes & Hd).
    { destruct text; [congruence|]. cbn [length] in H5. lia. }
    exists (mkEntry off text ts' :: es), d. rewrite E. split; [reflexivity|]. split.
    + cbn [map]. rewrite Hes, H3, H7. reflexivity.
    + intro Hok. destruct (H8 Hok) as [Ha Hb]. rewrite Hd by auto. lia.
Qed.

End Iter.

Lemma init_good f garbage rs : 0 < length garbage -> terminated f ->
  lines_fit (length garbage) (lines_of f) ->
  Good f (length garbage) (li_init f garbage rs) /\ plines f (li_init f garbage rs) = lines_of f /\
  lpos (li_init f garbage rs) = 0.
Proof.
  intros Hg Ht Hf. split; [|auto]. split; [|split; [|split]]; auto.
  - split.
    + unfold FInv, li_init, fi_init; cbn. rewrite set0_length. repeat split; lia.
    + unfold li_init, fi_init; cbn. split; [lia|]. split; [lia|].
      rewrite Nat.sub_0_r, set0_length, <- set0_length, skipn_all. reflexivity.
  - discriminate.
Qed.

(** Files that never start with a '|' line other than a tag. *)
Definition head_ok (f : bytes) : Prop :=
  match lines_of f with
  | (_, t) :: _ => bar_line t = true -> prefixb CTAG t = true
  | [] => True
  end.

(** C01: a complete read through any buffer longer than the longest line. *)
Lemma read_bank_ok garbage rs f :
  terminated f -> lines_fit (length garbage) (lines_of f) -> 0 < length garbage ->
  exists es d, read_bank garbage rs f = Some (es, d) /\
    map to_v es = visible (removed_in rs) f /\
    (head_ok f -> d = deleted_count (removed_in rs) f).
Proof.
  intros Ht Hf Hg.
  destruct (init_good f garbage rs Hg Ht Hf) as (HG & Hp & Hl).
  destruct (li_collect_ok f (length garbage) (S (length f)) (li_fuel f) _ HG Hg) as (es & d & E & H1 & H2).
  - unfold measure, li_fuel. rewrite Hl. lia.
  - rewrite Hl. lia.
  - exists es, d. split; [exact E|]. rewrite Hp in H1. cbn [li_removals li_init] in *. split; [exact H1|].
    intro Hok. rewrite H2.
    + cbn [li_del li_init]. unfold pending_deleted, skip_tag, deleted_count. rewrite Hp. cbn [li_first li_eating].
      destruct (lines_of f) as [|[o t] ls]; [reflexivity|]. cbn [orb andb tl].
      destruct (prefixb CTAG t); reflexivity.
    + unfold first_ok. rewrite Hp. unfold head_ok in Hok. destruct (lines_of f) as [|[o t] ls]; auto.
      split; auto. discriminate.
Qed.
