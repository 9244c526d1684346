(** Proofs about CollectModel: no token begins with an equal sign, and the words of one command. *)
From Verif Require Import Base DoskeyModel DoskeySpec DoskeyProofs CmdTokModel CmdTokSpec CmdTokProofs CmdTokRem CmdTokLoop CmdTokCommands CmdTokWords
  CollectModel CollectSpec CollectProofs.

(** ** No token begins with an equal sign *)
Definition whole (z : zip) : bytes := rev (fst z) ++ snd z.
Lemma whole_skip : forall r done, whole (skip_cont done r) = rev done ++ r.
Proof.
  induction r as [|c r IH]; intros done; cbn [skip_cont]; [reflexivity|]. destruct (is_cont c); [|reflexivity].
  rewrite IH. cbn [rev]. rewrite <- app_assoc. reflexivity.
Qed.
Lemma whole_char z : whole (next_char z) = whole z.
Proof.
  destruct z as [done [|c r]]; [reflexivity|]. cbn [next_char]. destruct (N_of_ascii c <? 128)%N.
  - unfold whole. cbn [fst snd rev]. rewrite <- app_assoc. reflexivity.
  - rewrite whole_skip. unfold whole. cbn [fst snd rev]. rewrite <- app_assoc. reflexivity.
Qed.
Lemma whole_byte z : whole (next_byte z) = whole z.
Proof. destruct z as [done [|c r]]; [reflexivity|]. unfold whole. cbn [next_byte fst snd rev]. rewrite <- app_assoc. reflexivity. Qed.

Definition EQ : byte := "="%char.
Definition fair (line : bytes) (p : nat) : Prop := BYTE line p <> EQ.
Lemma fair_pos line z : whole z = line -> (forall r, snd z <> EQ :: r) -> fair line (pos z).
Proof.
  intros W H. unfold fair, pos. rewrite <- W. unfold whole. rewrite <- (rev_length (fst z)), <- (Nat.add_0_r (length (rev (fst z)))), nth_app_at.
  destruct (snd z) as [|c r] eqn:E; [discriminate|]. cbn [nth]. intros ->. exact (H r eq_refl).
Qed.
Lemma eq_delim cw ra : has (get_delims cw ra false) EQ = true.
Proof. destruct cw, ra; reflexivity. Qed.
Lemma skip_fair cw ra line : forall fuel z z', skip_word_seps fuel (get_delims cw ra false) z = Some z' -> whole z = line ->
  whole z' = line /\ fair line (pos z').
Proof.
  induction fuel as [|fuel IH]; intros z z' H W; [discriminate|]. cbn [skip_word_seps] in H.
  destruct (snd z) as [|c r] eqn:E.
  - injection H as <-. split; [exact W|]. apply fair_pos; [exact W|]. rewrite E. discriminate.
  - destruct (ceq c "^") eqn:C.
    + apply ceq_iff in C. subst c.
      assert (K : whole z = line /\ fair line (pos z)) by (split; [exact W|]; apply fair_pos; [exact W|]; rewrite E; discriminate).
      destruct r as [|d r]; [injection H as <-; exact K|]. destruct (ceq d SPC); [|injection H as <-; exact K].
      apply IH in H; [exact H|]. rewrite !whole_byte. exact W.
    + destruct (has (get_delims cw ra false) c) eqn:D.
      * apply IH in H; [exact H|]. rewrite whole_byte. exact W.
      * injection H as <-. split; [exact W|]. apply fair_pos; [exact W|]. rewrite E. intros r' X. injection X as -> _. rewrite eq_delim in D. discriminate.
Qed.
Lemma start_fair cw line z s z' s' ra : start_new_word cw z s = Some (z', s', ra) -> whole z = line -> whole z' = line /\ fair line (pos z').
Proof.
  unfold start_new_word. destruct (skip_word_seps _ _ z) as [z1|] eqn:E; [|discriminate]. intros H W. injection H as <- _ _.
  exact (skip_fair _ _ _ _ _ _ E W).
Qed.

Definition wt_fair (line : bytes) (w : wturn) : Prop :=
  match w with WGo z x | WStop z x => whole z = line /\ fair line (wl_start x) end.
Lemma tail_fair beyond cw line z ws ra start end0 st ns1 fc fs w : word_tail beyond cw z ws ra start end0 st ns1 fc fs = Some w ->
  whole z = line -> fair line start -> wt_fair line w.
Proof.
  unfold word_tail. cbv zeta. intros H W F.
  assert (W2 : forall c, whole (if ceq c "^" then next_char (next_char z) else next_char z) = line) by (intros c; destruct (ceq c "^"); rewrite !whole_char; exact W).
  destruct (snd z) as [|x r]; [injection H as <-; cbn; auto|].
  match type of H with match ?e with _ => _ end = _ => destruct e as [[c ns]|]; [|discriminate] end.
  match type of H with (let (_, _) := ?e in _) = _ => destruct e as [hit cs] end. destruct hit; [injection H as <-; cbn; auto|].
  destruct (_ && _ && _ && _ && _); [injection H as <-; cbn; auto|].
  destruct (_ || _); injection H as <-; cbn [wt_fair wl_start]; auto.
Qed.
Lemma turn_fair beyond cw line z x w : word_turn beyond cw z x = Some w -> whole z = line -> fair line (wl_start x) -> wt_fair line w.
Proof.
  unfold word_turn. intros H W F. destruct (wl_in_quote x).
  - destruct (snd z) as [|c r]; injection H as <-; cbn [wt_fair wl_start]; rewrite ?whole_char; auto.
  - cbv zeta in H. destruct (transition _ _) as [t|]; [|discriminate]. destruct (ends_redir _).
    + destruct (Nat.ltb _ _); [injection H as <-; cbn; auto|]. destruct (start_new_word _ _ _) as [[[z' ws] ra]|] eqn:S; [|discriminate].
      destruct (start_fair _ _ _ _ _ _ _ S W) as [W' F']. destruct (transition _ _) as [t'|]; [|discriminate].
      exact (tail_fair _ _ _ _ _ _ _ _ _ _ _ _ _ H W' F').
    + exact (tail_fair _ _ _ _ _ _ _ _ _ _ _ _ _ H W F).
Qed.
Lemma loop_fair beyond cw line : forall fuel z x z' x', word_loop beyond cw fuel z x = Some (z', x') -> whole z = line -> fair line (wl_start x) ->
  whole z' = line /\ fair line (wl_start x').
Proof.
  induction fuel as [|fuel IH]; intros z x z' x' H W F; [discriminate|]. cbn [word_loop] in H.
  destruct (word_turn beyond cw z x) as [w|] eqn:T; [|discriminate]. pose proof (turn_fair _ _ _ _ _ _ T W F) as X.
  destruct w as [z1 x1|z1 x1]; cbn [wt_fair] in X; destruct X as [X1 X2].
  - exact (IH _ _ _ _ H X1 X2).
  - injection H as <- <-. auto.
Qed.
Lemma words_fair beyond line : forall fuel z s xs, words_from fuel beyond z s = Some xs -> whole z = line ->
  Forall (fun t => fair line (fst (fst t))) xs.
Proof.
  induction fuel as [|fuel IH]; intros z s xs H W; [discriminate|]. cbn [words_from] in H.
  destruct (snd z) as [|c r]; [injection H as <-; constructor|]. unfold word_next in H. cbv zeta in H.
  destruct (start_new_word _ _ _) as [[[z1 ws] ra]|] eqn:S; [|discriminate]. destruct (start_fair _ _ _ _ _ _ _ S W) as [W1 F1].
  destruct (word_loop _ _ _ _ _) as [[z2 x]|] eqn:L; [|discriminate].
  destruct (loop_fair _ _ _ _ _ _ _ _ L W1 F1) as [W2 F2]. destruct (words_from fuel beyond z2 _) as [l|] eqn:R; [|discriminate].
  injection H as <-. constructor; [exact F2|]. exact (IH _ _ _ R W2).
Qed.

(** ** The tokens as ranges of the line *)
Lemma skipn_twice (l : bytes) : forall n m, skipn n (skipn m l) = skipn (m + n) l.
Proof. induction l as [|x l IH]; intros n [|m]; cbn [skipn plus]; [reflexivity|destruct n; reflexivity|reflexivity|apply IH]. Qed.
Fixpoint toks (line : bytes) (base lo hi : nat) (ts : list (nat * nat * bool)) : Prop :=
  match ts with
  | [] => lo <= hi /\ (forall i, lo <= i < hi -> between (BYTE line i))
  | (o, n, ra) :: r => lo <= base + o /\ base + o + n <= hi /\ (forall i, lo <= i < base + o -> between (BYTE line i)) /\
                       (base + o = hi \/ BYTE line (base + o) <> EQ) /\ toks line base (base + o + n) hi r
  end.

Lemma words_toks line base : forall p l ts, words_of p l ts -> forall a, skipn (base + p) line = l ++ a ->
  base + p + length l <= length line ->
  Forall (fun t => base + fst (fst t) < base + p + length l -> BYTE line (base + fst (fst t)) <> EQ) ts ->
  toks line base (base + p) (base + p + length l) ts.
Proof.
  induction 1 as [p g F|p g t ra rest xs F RA WT H IH]; intros a E L N.
  - cbn [toks]. split; [lia|]. intros i I. replace i with (base + p + (i - (base + p))) by lia. rewrite <- nth_skipn, E, app_nth1 by lia.
    apply nth_Forall; [exact F|lia].
  - cbn [toks]. rewrite !app_length in *. split; [lia|]. split; [lia|]. split.
    + intros i I. replace i with (base + p + (i - (base + p))) by lia. rewrite <- nth_skipn, E, <- app_assoc, app_nth1 by lia.
      apply nth_Forall; [exact F|lia].
    + split.
      * pose proof (Forall_inv N) as X. cbn [fst] in X. destruct (Nat.eqb (base + (p + length g)) (base + p + (length g + (length t + length rest)))) eqn:B; [left; lia|right].
        apply X. lia.
      * replace (base + p + (length g + (length t + length rest))) with (base + (p + length g + length t) + length rest) by lia.
        replace (base + (p + length g) + length t) with (base + (p + length g + length t)) by lia.
        apply IH with (a := a).
        -- replace (base + (p + length g + length t)) with ((base + p) + (length g + length t)) by lia.
           rewrite <- skipn_twice, E, <- !app_assoc, app_assoc. apply skipn_app_exact. rewrite app_length. reflexivity.
        -- lia.
        -- eapply Forall_impl; [|exact (Forall_inv_tail N)]. intros t0 T0 T1. cbv beta in T0. apply T0. lia.
Qed.

(** ** The words of a token *)
Lemma run_le f l : run f l <= length l.
Proof. induction l as [|c l IH]; cbn [run length]; [lia|]. destruct (f c); lia. Qed.
Lemma run_in f : forall l i, i < run f l -> f (nth i l NUL) = true.
Proof.
  induction l as [|c l IH]; cbn [run]; intros i H; [lia|]. destruct (f c) eqn:E; [|lia]. destruct i as [|i]; [exact E|]. cbn [nth]. apply IH. lia.
Qed.
Lemma run_out f : forall l, run f l < length l -> f (nth (run f l) l NUL) = false.
Proof.
  induction l as [|c l IH]; cbn [run length]; intros H; [lia|]. destruct (f c) eqn:E; [|exact E]. cbn [nth]. apply IH. lia.
Qed.

Definition bare (w : word) : nat * nat * bool := (o_ w, n_ w, redir w).
Definition plain (first : bool) (ws : list word) : Prop :=
  exists w r, ws = w :: r /\ command_word w = first /\ Forall (fun x => command_word x = false) r /\ Forall (fun x => is_alias x = false) ws.

Lemma flag_of l o n : n <= length (skipn o l) -> flag (firstn n (skipn o l)) <-> Nat.ltb 1 n && (ceq (at_ l o) "-" || ceq (at_ l o) "/") = true.
Proof.
  intros L. assert (A : at_ l o = nth 0 (skipn o l) NUL) by (unfold at_; rewrite nth_skipn; f_equal; lia). rewrite A. clear A.
  generalize dependent (skipn o l). clear l. intros l L. unfold flag. destruct n as [|[|n]].
  - cbn. split; [intros (c & d & r & E & _); discriminate|discriminate].
  - cbn. destruct l as [|x l]; cbn; split; try discriminate; intros (c & d & r & E & _); discriminate.
  - destruct l as [|x [|y l]]; cbn [length] in L; try lia. cbn [firstn nth]. split.
    + intros (c & d & r & E & C). injection E as <- <- _. cbn [Nat.ltb Nat.leb andb]. rewrite orb_true_iff, !ceq_iff. exact C.
    + intros H. apply andb_true_iff in H as [_ H]. rewrite orb_true_iff, !ceq_iff in H. exists x, y, (firstn n l). auto.
Qed.

Lemma plus_sum line s n o m : plus_word line s n = (o, m) -> o + m = s + n /\ n <= m /\
  ((o = s /\ m = n) \/ (S o = s /\ at_ line o = "+"%char /\ 1 <= o /\ at_ line (o - 1) = SPC)).
Proof.
  unfold plus_word. destruct (Nat.leb 2 s && ceq (at_ line (s - 1)) "+" && ceq (at_ line (s - 2)) SPC) eqn:B; intros H; injection H as <- <-; [|lia].
  apply andb_true_iff in B as [B B3]. apply andb_true_iff in B as [B1 B2]. apply ceq_iff in B2, B3. apply Nat.leb_le in B1.
  split; [lia|]. split; [lia|]. right. split; [lia|]. split; [exact B2|]. split; [lia|]. replace (s - 1 - 1) with (s - 2) by lia. exact B3.
Qed.

Lemma token_pieces line hi old first s n ra o m : s + n <= hi -> hi <= length line -> plus_word line s n = (o, m) ->
  pieces hi line old ra o (firstn m (skipn o line)) (map bare (token_words line hi old first s n ra)) /\
  plain first (token_words line hi old first s n ra).
Proof.
  intros H1 H2 P. destruct (plus_sum _ _ _ _ _ P) as (P1 & P2 & _). unfold token_words. rewrite P. cbv zeta.
  assert (SL : length (skipn o line) = length line - o) by apply skipn_length.
  assert (FL : length (firstn m (skipn o line)) = m) by (rewrite firstn_length; lia).
  pose proof (flag_of line o m ltac:(lia)) as FG. set (t := firstn m (skipn o line)) in *.
  destruct (negb ra && negb old && Nat.ltb 1 m && (ceq (at_ line o) "-" || ceq (at_ line o) "/")) eqn:B.
  - rewrite <- andb_assoc in B. apply andb_true_iff in B as [B FT]. apply FG in FT. apply andb_true_iff in B as [R O].
    apply negb_true_iff in R, O. subst ra old. set (f := fun x => negb (ceq x ":")). pose proof (run_le f t) as RL.
    destruct (Nat.ltb (run f t) m) eqn:K.
    + apply Nat.ltb_lt in K. cbn [map bare o_ n_ redir]. split.
      * pose proof (run_out f t ltac:(lia)) as RO. unfold f in RO at 1. apply negb_false_iff, ceq_iff in RO.
        set (u := firstn (run f t) t). set (v := skipn (S (run f t)) t).
        assert (LU : length u = run f t) by (unfold u; rewrite firstn_length; lia).
        assert (LV : length v = m - S (run f t)) by (unfold v; rewrite skipn_length; lia).
        assert (E : t = u ++ ":"%char :: v).
        { rewrite <- (firstn_skipn (run f t) t) at 1. fold u. f_equal. rewrite <- RO. unfold v. clear - K FL.
          assert (L : run f t < length t) by lia. revert L. generalize (run f t). clear. induction t as [|x t IH]; intros [|k] L; cbn [length] in L; try lia; [reflexivity|].
          cbn [skipn nth]. apply IH. lia. }
        replace (S (run f t)) with (length u + 1) by lia. replace (o + (length u + 1)) with (o + length u + 1) by lia.
        replace (m - (length u + 1)) with (length v) by lia.
        apply pc_colon; auto. intros IN. apply (In_nth _ _ NUL) in IN as (i & I & EN).
        pose proof (run_in f t i ltac:(lia)) as RI. rewrite <- (nth_firstn t (run f t)) in RI by lia. fold u in RI. rewrite EN in RI. discriminate.
      * exists (mkw o (S (run f t)) first false false false false), [mkw (o + S (run f t)) (m - S (run f t)) false false false false false].
        split; [reflexivity|]. split; [reflexivity|]. split; repeat (apply Forall_cons; [reflexivity|]); constructor.
    + apply Nat.ltb_ge in K. cbn [map bare o_ n_ redir]. split.
      * set (k := run (fun x => ceq x "=") (skipn (o + m) (firstn hi line))).
        assert (LK : length (skipn (o + m) (firstn hi line)) = hi - (o + m)) by (rewrite skipn_length, firstn_length; lia).
        assert (KL : k <= hi - (o + m)) by (rewrite <- LK; apply run_le).
        assert (X : pieces hi line false false o t [(o, length t + k, false)]).
        { apply pc_equal; auto.
          - intros IN. apply (In_nth _ _ NUL) in IN as (i & I & EN). pose proof (run_in f t i ltac:(lia)) as RI. rewrite EN in RI. discriminate.
          - lia.
          - intros i I. pose proof (run_in _ _ _ I) as RI. cbv beta in RI. apply ceq_iff in RI. rewrite nth_skipn, nth_firstn in RI by lia. rewrite FL. exact RI.
          - destruct (Nat.eqb (o + m + k) hi) eqn:B; [left; lia|right]. rewrite FL.
            pose proof (run_out (fun x => ceq x "=") (skipn (o + m) (firstn hi line))) as RO. fold k in RO. specialize (RO ltac:(lia)). cbv beta in RO.
            rewrite nth_skipn, nth_firstn in RO by lia. intros X. rewrite X in RO. discriminate. }
        rewrite FL in X. exact X.
      * eexists _, []. split; [reflexivity|]. split; [reflexivity|]. split; repeat (apply Forall_cons; [reflexivity|]); constructor.
  - cbn [map bare o_ n_ redir]. split.
    + assert (X : pieces hi line old ra o t [(o, length t, ra)]).
      { apply pc_plain. destruct ra; [auto|]. destruct old; [auto|]. right. right. intros F. apply FG in F.
        cbn [negb andb] in B. rewrite F in B. discriminate. }
      rewrite FL in X. exact X.
    + eexists _, []. split; [reflexivity|]. split; [reflexivity|]. split; repeat (apply Forall_cons; [reflexivity|]); constructor.
Qed.

(** The words of a token follow each other, from its beginning to its end or behind some equal signs *)
Fixpoint chain (lo hi : nat) (xs : list (nat * nat * bool)) : Prop :=
  match xs with [] => lo = hi | (o, n, _) :: r => o = lo /\ chain (o + n) hi r end.
Lemma pieces_chain cend line old ra o t xs : pieces cend line old ra o t xs -> o + length t <= cend ->
  exists k, o + length t + k <= cend /\ (forall i, i < k -> BYTE line (o + length t + i) = EQ) /\ chain o (o + length t + k) xs /\
    exists n r b, xs = (o, n, b) :: r /\ (0 < length t -> 0 < n).
Proof.
  intros P L. destruct P as [F|u v R O F E N|k R O F N K1 K2 K3].
  - exists 0. split; [lia|]. split; [lia|]. cbn [chain]. split; [lia|]. exists (length t), [], ra. auto.
  - assert (LT : length t = length u + S (length v)) by (rewrite E, app_length; reflexivity).
    exists 0. split; [lia|]. split; [lia|]. cbn [chain]. split; [lia|]. eexists _, _, _. split; [reflexivity|lia].
  - exists k. split; [exact K1|]. split; [exact K2|]. cbn [chain]. split; [lia|]. eexists _, _, _. split; [reflexivity|lia].
Qed.

Lemma chain_laid line hi : forall ws lo e, chain lo e (map bare ws) -> e <= hi -> forall rest, laid_out line e hi rest -> laid_out line lo hi (ws ++ rest).
Proof.
  induction ws as [|w ws IH]; intros lo e C E rest R; cbn [map chain app] in *; [subst; exact R|].
  destruct w as [o n cw al rd q bi]. unfold bare in C. cbn [o_ n_ redir] in C. destruct C as [-> C].
  assert (LE : forall xs a b, chain a b xs -> a <= b).
  { induction xs as [|[[x y] z] xs IHx]; intros a b X; cbn in X; [lia|]. destruct X as [-> X]. apply IHx in X. lia. }
  pose proof (LE _ _ _ C). cbn [laid_out o_ n_ end_of]. unfold end_of. cbn [o_ n_]. split; [left; lia|]. split; [lia|]. split; [lia|].
  exact (IH _ _ C E rest R).
Qed.
Lemma chain_covers : forall ws lo e i, chain lo e (map bare ws) -> lo <= i < e -> exists w, In w ws /\ o_ w <= i < end_of w.
Proof.
  induction ws as [|w ws IH]; intros lo e i C I; cbn [map chain] in *; [lia|]. destruct w as [o n cw al rd q bi]. unfold bare in C. cbn [o_ n_ redir] in C.
  destruct C as [-> C]. destruct (Nat.ltb i (lo + n)) eqn:B.
  - eexists. split; [left; reflexivity|]. unfold end_of. cbn [o_ n_]. lia.
  - destruct (IH _ _ i C) as (w & W & WI); [lia|]. exists w. split; [right; exact W|exact WI].
Qed.

Lemma behind_laid line lo lo' hi ws : ws <> [] -> laid_out line lo hi ws -> (forall w r, ws = w :: r -> behind line lo' (o_ w) /\ lo' <= end_of w) -> laid_out line lo' hi ws.
Proof.
  destruct ws as [|w r]; [congruence|]. intros _ (H1 & H2 & H3 & H4) H. destruct (H w r eq_refl). cbn [laid_out]. auto.
Qed.

(** ** All tokens of a command *)
Lemma all_tokens_ok line base hi old : hi <= length line -> forall ts first t0 lo, toks line base t0 hi ts -> t0 <= lo -> lo <= hi ->
  (forall i, t0 <= i < lo -> BYTE line i = EQ) ->
  laid_out line lo hi (all_tokens line hi base old first ts) /\
  covered between line t0 hi (all_tokens line hi base old first ts) /\
  Forall (fun x => is_alias x = false) (all_tokens line hi base old first ts) /\
  (ts = [] \/ exists w r, all_tokens line hi base old first ts = w :: r /\ command_word w = first /\ Forall (fun x => command_word x = false) r).
Proof.
  intros HL. induction ts as [|[[o n] ra] ts IH]; intros first t0 lo T T0 LH EQS.
  - cbn [toks] in T. destruct T as [T1 T2]. cbn [all_tokens]. split; [exact LH|]. split; [|split; [constructor|left; reflexivity]].
    intros i I. right. apply T2. exact I.
  - cbn [toks] in T. destruct T as (T1 & T2 & T3 & T4 & T5). cbn [all_tokens]. set (s := base + o) in *.
    destruct (plus_word line s n) as [o' m] eqn:P. destruct (plus_sum _ _ _ _ _ P) as (P1 & P2 & P3).
    destruct (token_pieces line hi old first s n ra o' m T2 HL P) as [PC PL].
    set (ws := token_words line hi old first s n ra) in *.
    assert (FL : length (firstn m (skipn o' line)) = m) by (rewrite firstn_length, skipn_length; lia).
    destruct (pieces_chain _ _ _ _ _ _ _ PC) as (k & K1 & K2 & CH & (n1 & r1 & b1 & EX & NP)); [lia|]. rewrite FL, P1 in *.
    destruct (IH false (s + n) (s + n + k)) as (I1 & I2 & I3 & I4); [exact T5|lia|lia| |].
    { intros i I. replace i with (s + n + (i - (s + n))) by lia. apply K2. lia. }
    assert (SLO : lo <= s).
    { destruct (Nat.leb lo s) eqn:B; [lia|]. exfalso. destruct T4 as [T4|T4]; [lia|]. apply T4, EQS. lia. }
    split; [|split; [|split]].
    + apply behind_laid with (lo := o').
      * destruct PL as (w & r & -> & _). discriminate.
      * apply chain_laid with (e := s + n + k); auto.
      * intros w r E. destruct PL as (w' & r' & EW & _). rewrite EW in E, EX. cbn [app] in E. injection E as <- _. cbn [map] in EX. injection EX as E1 E2 E3 _.
        unfold end_of. rewrite E1, E2. destruct P3 as [[-> ->]|(P3 & P4 & P5 & P6)]; [split; [left|]; lia|].
        assert (0 < n1) by (apply NP; lia). split; [|lia].
        destruct (Nat.leb lo o') eqn:B; [left; lia|right]. split; [lia|]. split; [exact P4|]. split; [exact P5|exact P6].
    + intros i I. destruct (Nat.ltb i s) eqn:B1; [right; apply T3; lia|]. destruct (Nat.ltb i (s + n + k)) eqn:B2.
      * left. destruct (chain_covers ws o' (s + n + k) i CH) as (w & W & WI); [lia|]. exists w. split; [apply in_or_app; auto|exact WI].
      * destruct (I2 i) as [(w & W & WI)|G]; [lia|left|right; exact G]. exists w. split; [apply in_or_app; auto|exact WI].
    + apply Forall_app. split; [|exact I3]. destruct PL as (w & r & _ & _ & _ & PL). exact PL.
    + right. destruct PL as (w & r & -> & PL1 & PL2 & _). exists w, (r ++ all_tokens line hi base old false ts). split; [reflexivity|].
      split; [exact PL1|]. apply Forall_app. split; [exact PL2|]. destruct I4 as [->|(w2 & r2 & -> & X1 & X2)]; [constructor|]. constructor; auto.
Qed.
