(** C66: the words of the line. *)
From Verif Require Import Base DoskeyModel DoskeySpec DoskeyProofs CmdTokModel CmdTokSpec CmdTokProofs CmdTokRem CmdTokLoop CmdTokCommands CmdTokWords CmdTokProperties
  CollectModel CollectSpec CollectProofs CollectTokens CollectWords CollectAll CollectStrip CollectRaw.

Definition stop_of (line : bytes) (cursor : nat) (stopc : bool) : nat := if stopc then cursor else length line.

Lemma raw_facts lookup alias deprecated enhanced dots line cursor stopc cs raw : cursor <= length line ->
  raw_words lookup alias deprecated enhanced dots line cursor stopc = Some (cs, raw) ->
  Forall fresh_word raw /\ laid_out line 0 (stop_of line cursor stopc) raw /\ covered gap line 0 (stop_of line cursor stopc) raw /\
  Forall (fun w => quoted w = false /\ end_of w <= length line) raw.
Proof.
  intros CL E. destruct (raw_ok lookup alias deprecated enhanced dots line cursor stopc CL) as (cs' & gs & tail & E' & NE & IO & FO & G & T & FR).
  rewrite E in E'. injection E' as <- ->. fold (stop_of line cursor stopc) in IO. destruct (good_laid _ _ _ _ _ _ _ IO G) as [L C].
  assert (SL : stop_of line cursor stopc <= length line) by (unfold stop_of; destruct stopc; lia).
  pose proof (tail_laid line cursor stopc 0 gs tail CL T ltac:(lia) ltac:(auto) L) as LT.
  split; [exact FR|]. split; [exact LT|]. split.
  - intros i I. destruct (C i I) as [(w & W & WI)|X]; [left|right; exact X]. exists w. split; [apply in_or_app; auto|exact WI].
  - rewrite Forall_forall in FR |- *. intros w W. split; [exact (proj1 (FR w W))|]. pose proof (laid_In _ _ _ _ _ LT W) as X. change (end_of w <= stop_of line cursor stopc) in X. lia.
Qed.

(** The words come command by command; the words of a command are within it, its first word is marked, its macro name is marked when
    doskey would expand it, and there may be one more, empty word at the cursor, that begins a command when the last command has no word. *)
Theorem words_by_command lookup alias deprecated enhanced dots line cursor stopc : cursor <= length line ->
  exists cs gs tail k, collect lookup alias deprecated enhanced dots line cursor stopc = Some (cs, concat gs ++ tail, k) /\
    cs <> [] /\ in_order line (stop_of line cursor stopc) true 0 (map fst cs) /\
    Forall2 (fun '(o, n, _) g => within line o n g /\ macro_word alias (alias_place enhanced line o) o (firstn n (skipn o line)) g) cs gs /\
    (tail = [] \/ tail = [mkw cursor 0 (is_nil (last gs [])) false false false false]).
Proof.
  intros CL. destruct (raw_ok lookup alias deprecated enhanced dots line cursor stopc CL) as (cs & gs & tail & E & NE & IO & FO & G & T & FR).
  fold (stop_of line cursor stopc) in IO. unfold collect. rewrite E.
  exists cs, (map (map (strip_quotes line)) gs), (map (strip_quotes line) tail), (command_offset cursor cs).
  split; [rewrite map_app, concat_map; reflexivity|]. split; [exact NE|]. split; [exact IO|].
  assert (SL : stop_of line cursor stopc <= length line) by (unfold stop_of; destruct stopc; lia).
  split.
  - apply Forall_app in FR as [FR _]. clear E T NE.
    assert (EN : forall o n, In (o, n) (map fst cs) -> o + n <= length line) by (intros o n I; pose proof (in_order_stop _ _ _ _ _ IO o n I); lia).
    clear IO. induction G as [|[[o n] al] g cs gs Gg G IH]; [constructor|]. cbn [concat] in FR. apply Forall_app in FR as [FR1 FR2].
    cbn [map]. constructor; [|apply IH; [exact (Forall_inv_tail FO)|exact FR2|intros o' n' I; apply EN; right; exact I]].
    specialize (EN o n (or_introl eq_refl)). destruct Gg as [(M & LO & FO2) (CV & MW)].
    assert (QF : Forall (fun w => quoted w = false) g) by (eapply Forall_impl; [|exact FR1]; intros w [X _]; exact X).
    assert (ST : forall w, In w g -> shrunk line w (strip_quotes line w) /\ stripped line w (strip_quotes line w)).
    { intros w W. rewrite Forall_forall in QF. destruct (strip_ok line w) as [X Y]; [pose proof (laid_In _ _ _ _ _ LO W); lia|exact (QF w W)|auto]. }
    split; [split; [|split]|].
    + destruct M as [->|(w & r & -> & M1 & M2)]; [left; reflexivity|right]. cbn [map]. eexists _, _. split; [reflexivity|].
      split; [rewrite (proj1 (proj2 (ST w (or_introl eq_refl)))); exact M1|].
      apply Forall_map. rewrite Forall_forall in M2 |- *. intros x X. rewrite (proj1 (proj2 (ST x (or_intror X)))). exact (M2 x X).
    + apply strip_laid; [exact EN|exact QF|exact LO].
    + apply Forall_map. rewrite Forall_forall in FO2 |- *. intros x X. specialize (FO2 x X). destruct (proj1 (ST x X)) as (S1 & _). lia.
    + pose proof (Forall_inv FO) as FL. cbn [flag_ok] in FL.
      assert (NA : forall l, (forall x, In x l -> In x g) -> Forall (fun x => is_alias x = false) l -> Forall (fun x => is_alias x = false) (map (strip_quotes line) l)).
      { intros l IN F. apply Forall_map. rewrite Forall_forall in F |- *. intros x X. destruct (proj2 (ST x (IN x X))) as (_ & S2 & _). rewrite S2. exact (F x X). }
      destruct MW as [(name & r & A & FW & N0 & AN & -> & F)|(A & F)].
      * left. cbn [map]. eexists name, (map (strip_quotes line) r). destruct FL as [FL|FL].
        -- split; [apply FL; exact A|]. split; [exact FW|]. split; [exact N0|]. split; [exact AN|].
           split; [unfold strip_quotes at 1; cbn [n_ is_alias]; rewrite orb_true_r; reflexivity|]. apply NA; [intros x X; right; exact X|exact F].
        -- exfalso. subst n. destruct FW as (r0 & FW & _). cbn [firstn] in FW. destruct name; [congruence|discriminate].
      * right. split; [|apply NA; [auto|exact F]]. intros name A' FW N0. destruct FL as [FL|FL].
        -- apply A; [apply FL; exact A'|exact FW|exact N0].
        -- exfalso. subst n. destruct FW as (r0 & FW & _). cbn [firstn] in FW. destruct name; [congruence|discriminate].
  - assert (LE : is_nil (last (map (map (strip_quotes line)) gs) []) = is_nil (last gs [])).
    { clear. destruct gs as [|g gs _] using rev_ind; [reflexivity|]. rewrite map_app. cbn [map]. rewrite !last_last. destruct g; reflexivity. }
    rewrite LE. destruct T as [(-> & _)|(-> & _)]; [left; reflexivity|right; reflexivity].
Qed.
Print Assumptions words_by_command.

(** The words are in order, within the line, and do not overlap (but for a +); what is not in a word is a delimiter, a separator or a
    quote. *)
Theorem words_cover_line lookup alias deprecated enhanced dots line cursor stopc cs ws k : cursor <= length line ->
  collect lookup alias deprecated enhanced dots line cursor stopc = Some (cs, ws, k) ->
  laid_out line 0 (stop_of line cursor stopc) ws /\ covered (fun c => gap c \/ c = DQ) line 0 (stop_of line cursor stopc) ws.
Proof.
  intros CL. unfold collect. destruct (raw_words _ _ _ _ _ _ _ _) as [[cs' raw]|] eqn:E; [|discriminate]. intros H. injection H as <- <- <-.
  destruct (raw_facts _ _ _ _ _ _ _ _ _ _ CL E) as (FR & L & C & F).
  assert (SL : stop_of line cursor stopc <= length line) by (unfold stop_of; destruct stopc; lia). split.
  - apply strip_laid; [exact SL| |exact L]. eapply Forall_impl; [|exact FR]. intros w [X _]. exact X.
  - apply strip_covered; [exact F|exact C].
Qed.
Print Assumptions words_cover_line.

(** The quotes around a word: the opening one is taken away, and the one at the end exactly when it closes. *)
Theorem words_unquoted lookup alias deprecated enhanced dots line cursor stopc cs ws k : cursor <= length line ->
  collect lookup alias deprecated enhanced dots line cursor stopc = Some (cs, ws, k) ->
  exists raw, laid_out line 0 (stop_of line cursor stopc) raw /\ covered gap line 0 (stop_of line cursor stopc) raw /\ Forall2 (stripped line) raw ws.
Proof.
  intros CL. unfold collect. destruct (raw_words _ _ _ _ _ _ _ _) as [[cs' raw]|] eqn:E; [|discriminate]. intros H. injection H as <- <- <-.
  destruct (raw_facts _ _ _ _ _ _ _ _ _ _ CL E) as (FR & L & C & F). exists raw. split; [exact L|]. split; [exact C|]. clear - F.
  induction raw as [|w raw IH]; [constructor|]. cbn [map]. destruct (Forall_inv F) as [F1 F2]. constructor; [exact (proj1 (strip_ok line w F2 F1))|].
  exact (IH (Forall_inv_tail F)).
Qed.
Print Assumptions words_unquoted.

(** Up to the cursor: the last word ends there, or before the quote that closes it there. *)
Theorem last_word_at_cursor lookup alias deprecated enhanced dots line cursor cs ws k : cursor <= length line ->
  collect lookup alias deprecated enhanced dots line cursor true = Some (cs, ws, k) ->
  exists a w, ws = a ++ [w] /\ (end_of w = cursor \/ (S (end_of w) = cursor /\ quoted w = true /\ BYTE line (end_of w) = DQ)).
Proof.
  intros CL. unfold collect. destruct (raw_words _ _ _ _ _ _ _ _) as [[cs' raw]|] eqn:E; [|discriminate]. intros H. injection H as <- <- <-.
  destruct (raw_facts _ _ _ _ _ _ _ _ _ _ CL E) as (FR & L & C & F).
  destruct (raw_ok lookup alias deprecated enhanced dots line cursor true CL) as (cs2 & gs & tail & E' & NE & IO & FO & G & T & _).
  rewrite E in E'. injection E' as <- ->.
  assert (X : exists a w, concat gs ++ tail = a ++ [w] /\ end_of w = cursor).
  { destruct T as [(-> & ws & w & CG & LE)|(-> & _)].
    - rewrite app_nil_r in *. exists ws, w. split; [exact CG|]. specialize (LE eq_refl).
      pose proof (laid_In _ _ _ _ w L) as X. rewrite CG in X. specialize (X ltac:(apply in_or_app; right; left; reflexivity)). cbn [stop_of] in X. lia.
    - eexists (concat gs), _. split; [reflexivity|]. unfold end_of. cbn [o_ n_]. lia. }
  destruct X as (a & w & X & EW). rewrite X in *. exists (map (strip_quotes line) a), (strip_quotes line w). split; [rewrite map_app; reflexivity|].
  apply Forall_app in F as [_ F]. destruct (Forall_inv F) as [F1 F2]. destruct (strip_ok line w F2 F1) as [_ (S1 & S2 & S3 & S4 & S5 & S6)].
  destruct S5 as [S5|(S5 & S7 & S8)]; [left; lia|right]. split; [lia|]. auto.
Qed.
Print Assumptions last_word_at_cursor.

(** The offset returned: that of the last command that does not begin behind the cursor. *)
Theorem offset_of_command lookup alias deprecated enhanced dots line cursor stopc cs ws k : cursor <= length line ->
  collect lookup alias deprecated enhanced dots line cursor stopc = Some (cs, ws, k) ->
  (forall o n al, In (o, n, al) cs -> o <= cursor -> o <= k) /\ (k = 0 \/ exists n al, In (k, n, al) cs /\ k <= cursor).
Proof.
  intros CL. unfold collect. destruct (raw_words _ _ _ _ _ _ _ _) as [[cs' raw]|] eqn:E; [|discriminate]. intros H. injection H as <- <- <-.
  destruct (raw_ok lookup alias deprecated enhanced dots line cursor stopc CL) as (cs2 & gs & tail & E' & NE & IO & _). rewrite E in E'. injection E' as <- _.
  fold (stop_of line cursor stopc) in IO. generalize dependent (stop_of line cursor stopc). intros stop IO. clear E NE. unfold command_offset.
  set (f := fun acc '(o, _, _) => if Nat.leb o cursor then o else acc).
  assert (GEN : forall cs first lo acc, in_order line stop first lo (map fst cs) -> acc <= lo ->
     acc <= fold_left f cs acc /\ (forall o n al, In (o, n, al) cs -> o <= cursor -> o <= fold_left f cs acc) /\
     (fold_left f cs acc = acc \/ exists n al, In (fold_left f cs acc, n, al) cs /\ fold_left f cs acc <= cursor)).
  { clear. induction cs as [|[[o n] al] cs IH]; intros first lo acc H A; cbn [fold_left].
    - split; [lia|]. split; [intros o n al []|left; reflexivity].
    - cbn [map fst in_order] in H. destruct H as (H1 & H2 & H3 & H4 & H5). unfold f at 2 4 6 8 10. destruct (Nat.leb o cursor) eqn:B.
      + destruct (IH false (o + n) o H5 ltac:(lia)) as (I1 & I2 & I3). split; [lia|]. split.
        * intros o' n' al' [X|X] Y; [injection X as <- <- <-; exact I1|exact (I2 _ _ _ X Y)].
        * right. destruct I3 as [->|(n' & al' & X & Y)]; [exists n, al; split; [left; reflexivity|lia]|exists n', al'; split; [right; exact X|exact Y]].
      + destruct (IH false (o + n) acc H5 ltac:(lia)) as (I1 & I2 & I3). split; [lia|]. split.
        * intros o' n' al' [X|X] Y; [injection X as <- <- <-; lia|exact (I2 _ _ _ X Y)].
        * destruct I3 as [I3|(n' & al' & X & Y)]; [left; exact I3|right; exists n', al'; split; [right; exact X|exact Y]]. }
  destruct (GEN cs' true 0 0 IO ltac:(lia)) as (_ & X & Y). auto.
Qed.
Print Assumptions offset_of_command.

(** What the words of a command are made of: its tokens (the words C39 is about), where a flag is split behind its first colon or takes
    the equal signs behind it, and a + behind a space belongs to the token behind it. *)
Theorem command_tokens alias deprecated line stop o n al ws : o + n <= stop -> stop <= length line ->
  command_words alias deprecated line stop (o, n, al) = Some ws ->
  exists name base head rest ts old, first_word (firstn n (skipn o line)) name /\ ws = head ++ rest /\
    (old = true <-> name <> [] /\ deprecated name = true) /\
    ((base = o /\ head = []) \/ (head = [mkw o (length name) true true false false false] /\ o + length name <= base /\
       (forall i, o + length name <= i < base -> is_blank (BYTE line i)))) /\
    words_of 0 (firstn (o + n - base) (skipn base line)) ts /\ become line (o + n) old base ts (map bare rest).
Proof.
  intros H1 H2 H. unfold command_words in H. cbv zeta in H. set (text := firstn n (skipn o line)) in *.
  pose proof (first_word_run text) as FW. set (name := firstn (run (fun x => negb (blank x)) text) text) in *.
  assert (LT : length text = n) by (unfold text; rewrite firstn_length, skipn_length; lia).
  assert (LN : length name <= n) by (unfold name; rewrite firstn_length; lia).
  set (is_al := Nat.ltb 0 (length name) && al && alias name) in *.
  set (bl := run blank (skipn (o + length name) (firstn stop line))) in *.
  assert (BL : bl <= stop - (o + length name)).
  { unfold bl. pose proof (run_le blank (skipn (o + length name) (firstn stop line))) as R. rewrite skipn_length, firstn_length in R. lia. }
  assert (BB : forall i, o + length name <= i < o + length name + bl -> is_blank (BYTE line i)).
  { intros i I. pose proof (run_in blank (skipn (o + length name) (firstn stop line)) (i - (o + length name)) ltac:(fold bl; lia)) as R.
    rewrite nth_skipn, nth_firstn in R by lia. replace (o + length name + (i - (o + length name))) with i in R by lia. apply blank_iff, R. }
  set (dl := if is_al then length name + bl else 0) in *.
  set (len := if Nat.leb (o + n) stop && Nat.leb (o + dl) stop && Nat.leb dl n then n - dl else 0) in *.
  set (old := Nat.ltb 0 (length name) && deprecated name) in *.
  assert (DL : o + dl <= stop) by (unfold dl; destruct is_al; lia).
  assert (LE : len = n - dl).
  { unfold len. replace (Nat.leb (o + n) stop) with true by lia. replace (Nat.leb (o + dl) stop) with true by lia. cbn [andb].
    destruct (Nat.leb dl n) eqn:B; [reflexivity|]. apply Nat.leb_gt in B. lia. }
  destruct (words_cover (at_ line (o + dl + len)) (negb is_al) (firstn len (skipn (o + dl) line))) as (ts & E & WO). rewrite E in H. injection H as <-.
  assert (TS : Nat.leb dl n = true \/ ts = []).
  { destruct (Nat.leb dl n) eqn:B; [auto|right]. apply Nat.leb_gt in B. replace len with 0 in E by lia. cbn in E. congruence. }
  exists name, (o + dl). eexists _, _, ts, old. split; [exact FW|]. split; [reflexivity|]. split.
  { unfold old. rewrite andb_true_iff, Nat.ltb_lt. destruct name; cbn [length]; split; intros [X Y]; (split; [|exact Y]); try lia; congruence. }
  split.
  { unfold dl. destruct is_al; [right|left; split; [lia|reflexivity]]. split; [reflexivity|]. split; [lia|]. intros i I. apply BB. lia. }
  split.
  { replace (o + n - (o + dl)) with len by lia. exact WO. }
  assert (BND : Forall (fun t => o + dl + fst (fst t) + snd (fst t) <= o + n) ts).
  { destruct TS as [TS| ->]; [|constructor]. apply Nat.leb_le in TS. assert (LL : length (firstn len (skipn (o + dl) line)) <= len) by (rewrite firstn_length; lia).
    assert (GEN : forall p l xs, words_of p l xs -> Forall (fun t => fst (fst t) + snd (fst t) <= p + length l) xs).
    { clear. induction 1 as [p g F|p g t ra rest xs F RA WT H IH]; [constructor|]. constructor; [cbn [fst snd]; rewrite !app_length; lia|].
      eapply Forall_impl; [|exact IH]. intros x X. cbv beta in X. rewrite !app_length. lia. }
    eapply Forall_impl; [|exact (GEN _ _ _ WO)]. intros x X. cbv beta in X. lia. }
  clear - BND H1 H2. generalize (negb is_al). induction ts as [|[[p m] ra] ts IH]; intros first; cbn [all_tokens map]; [constructor|].
  rewrite map_app. pose proof (Forall_inv BND) as B. cbn [fst snd] in B. destruct (plus_word line (o + dl + p) m) as [p' m'] eqn:P.
  destruct (plus_sum _ _ _ _ _ P) as (P1 & P2 & P3).
  apply bc_cons with (p := p'); [| |apply IH; exact (Forall_inv_tail BND)].
  - unfold plus_word in P. unfold takes_plus. change (nth (o + dl + p - 1) line NUL) with (at_ line (o + dl + p - 1)). change (nth (o + dl + p - 2) line NUL) with (at_ line (o + dl + p - 2)).
    destruct (Nat.leb 2 (o + dl + p) && ceq (at_ line (o + dl + p - 1)) "+" && ceq (at_ line (o + dl + p - 2)) SPC) eqn:C; injection P as <- <-.
    + left. apply andb_true_iff in C as [C C3]. apply andb_true_iff in C as [C1 C2]. apply ceq_iff in C2, C3. apply Nat.leb_le in C1. split; [auto|lia].
    + right. split; [|reflexivity]. intros (X1 & X2 & X3). rewrite X2, X3 in C. rewrite !ceq_refl in C. replace (Nat.leb 2 (o + dl + p)) with true in C by lia. discriminate.
  - replace (o + dl + p + m - p') with m' by lia.
    exact (proj1 (token_pieces line (o + n) old first (o + dl + p) m ra p' m' ltac:(lia) ltac:(lia) P)).
Qed.
Print Assumptions command_tokens.

(** ** Examples *)
Definition no_alias (n : bytes) : bool := false.
Definition alias_ls (n : bytes) : bool := eqb_bytes n (lit "ls").
Definition shown (line : bytes) (r : option (list (nat * nat * bool) * list word * nat)) : option (list (bytes * bool * bool * bool * bool) * nat) :=
  match r with
  | Some (_, ws, k) => Some (map (fun w => (text_of line w, command_word w, is_alias w, redir w, quoted w)) ws, k)
  | None => None
  end.
Example collect_ex : let line := lit "foo -a:b ""c d"" --x= y>z & ls ""e f" in
  length line = 33 /\ shown line (collect no_macros alias_ls no_alias true true line 33 true) =
  Some ([(lit "foo", true, false, false, false); (lit "-a:", false, false, false, false); (lit "b", false, false, false, false);
         (lit "c d", false, false, false, true); (lit "--x=", false, false, false, false); (lit "y", false, false, false, false);
         (lit "z", false, false, true, false); (lit "ls", true, true, false, false); (lit "e f", false, false, false, true)], 26).
Proof. vm_compute. split; reflexivity. Qed.
Example collect_end_ex : let line := lit "foo & " in
  shown line (collect no_macros alias_ls no_alias true true line 6 true) =
  Some ([(lit "foo", true, false, false, false); ([], true, false, false, false)], 6).
Proof. vm_compute. reflexivity. Qed.
Example collect_space_ex : let line := lit " ls a" in
  shown line (collect no_macros alias_ls no_alias true true line 5 false) =
  Some ([(lit "ls", true, false, false, false); (lit "a", false, false, false, false)], 0).
Proof. vm_compute. reflexivity. Qed.
Example tokens_ex : exists ws, command_words alias_ls no_alias (lit "ls /a=b") 7 (0, 7, true) = Some ws /\ map bare ws = [(0, 2, false); (3, 3, false); (6, 1, false)].
Proof. eexists. split; vm_compute; reflexivity. Qed.

(** ** Refuted: words do overlap *)
Fixpoint disjoint (lo : nat) (ws : list word) : Prop := match ws with [] => True | w :: r => lo <= o_ w /\ disjoint (end_of w) r end.
Theorem words_disjoint_refuted :
  ~ forall lookup alias deprecated enhanced dots line cursor stopc cs ws k, cursor <= length line ->
      collect lookup alias deprecated enhanced dots line cursor stopc = Some (cs, ws, k) -> disjoint 0 ws.
Proof.
  intros H. specialize (H no_macros no_alias no_alias true true (lit " +/b") 4 true). cbv zeta in H.
  destruct (collect no_macros no_alias no_alias true true (lit " +/b") 4 true) as [[[cs ws] k]|] eqn:E; [|vm_compute in E; discriminate].
  specialize (H cs ws k ltac:(cbn; lia) eq_refl). vm_compute in E. injection E as <- <- <-. unfold disjoint, end_of in H. cbn [o_ n_] in H. lia.
Qed.
Print Assumptions words_disjoint_refuted.
