(** Proofs about CollectModel: the words of the commands. *)
From Verif Require Import Base DoskeyModel DoskeySpec DoskeyProofs CmdTokModel CmdTokSpec CmdTokProofs CmdTokRem CmdTokLoop CmdTokCommands CmdTokWords CmdTokProperties
  CollectModel CollectSpec CollectProofs CollectTokens.

Lemma blank_iff c : blank c = true <-> is_blank c.
Proof. unfold blank, is_blank. rewrite orb_true_iff, !ceq_iff. reflexivity. Qed.
Lemma blank_between c : is_blank c -> between c.
Proof. intros [->| ->]; unfold between; cbn; tauto. Qed.

Lemma first_word_run t : first_word t (firstn (run (fun x => negb (blank x)) t) t).
Proof.
  set (k := run _ t). exists (skipn k t). split; [symmetry; apply firstn_skipn|]. split.
  - apply Forall_forall. intros c C. apply (In_nth _ _ NUL) in C as (i & I & E). rewrite firstn_length in I.
    rewrite nth_firstn in E by lia. pose proof (run_in (fun x => negb (blank x)) t i ltac:(fold k; lia)) as R. cbv beta in R. rewrite E in R.
    rewrite <- blank_iff. destruct (blank c); [discriminate|discriminate].
  - destruct (skipn k t) as [|c r] eqn:E; [auto|right]. exists c, r. split; [reflexivity|]. rewrite <- blank_iff.
    assert (L : k < length t) by (apply (f_equal (@length _)) in E; rewrite skipn_length in E; cbn [length] in E; lia).
    pose proof (run_out _ _ L) as R. cbv beta in R. apply negb_false_iff in R. fold k in R.
    replace (nth k t NUL) with (nth 0 (skipn k t) NUL) in R by (rewrite nth_skipn; f_equal; lia). rewrite E in R. exact R.
Qed.
Lemma first_word_unique t a b : first_word t a -> first_word t b -> a = b.
Proof.
  intros (r & E & F & R) (r' & E' & F' & R'). revert t E b E' F'. induction a as [|x a IH]; intros t E b E' F'.
  - destruct b as [|y b]; [reflexivity|]. exfalso. cbn [app] in E. subst t. cbn [app] in E'. pose proof (Forall_inv F') as X. cbv beta in X.
    destruct R as [->|(c & r2 & -> & B)]; [discriminate|]. injection E' as -> _. contradiction.
  - destruct b as [|y b].
    + exfalso. cbn [app] in E'. subst t. cbn [app] in E'. pose proof (Forall_inv F) as X. cbv beta in X.
      destruct R' as [->|(c & r2 & E2 & B)]; [discriminate|]. subst r'. injection E' as -> _. contradiction.
    + cbn [app] in *. subst t. injection E' as -> E2. f_equal. apply (IH (Forall_inv_tail F) (a ++ r) eq_refl b E2 (Forall_inv_tail F')).
Qed.

Lemma laid_mono line hi lo lo' ws : lo' <= lo -> laid_out line lo hi ws -> laid_out line lo' hi ws.
Proof.
  intros L. destruct ws as [|w r]; cbn [laid_out]; [lia|]. intros (H1 & H2 & H3 & H4). split; [|split; [lia|auto]].
  destruct H1 as [H1|(H1 & H5)]; [left; lia|]. destruct (Nat.leb lo' (o_ w)) eqn:B; [left; lia|]. right. split; [lia|exact H5].
Qed.
Lemma laid_from line hi b : (b = 0 \/ BYTE line (b - 1) <> "+"%char) -> forall ws lo, b <= lo -> laid_out line lo hi ws -> Forall (fun w => b <= o_ w) ws.
Proof.
  intros B. induction ws as [|w r IH]; intros lo L H; [constructor|]. cbn [laid_out] in H. destruct H as (H1 & H2 & H3 & H4).
  constructor.
  - destruct H1 as [H1|(H1 & H5 & H6 & H7)]; [lia|]. destruct (Nat.leb b (o_ w)) eqn:X; [lia|]. exfalso. destruct B as [->|B]; [lia|].
    apply B. rewrite <- H5. f_equal. lia.
  - apply (IH (end_of w)); [lia|exact H4].
Qed.

Section Words.
Variable alias : bytes -> bool.
Variable deprecated : bytes -> bool.

Lemma command_words_ok line stop o n al : o + n <= stop -> stop <= length line -> (o = 0 \/ BYTE line (o - 1) <> "+"%char) ->
  exists ws, command_words alias deprecated line stop (o, n, al) = Some ws /\ marked ws /\ laid_out line o (o + n) ws /\
    Forall (fun w => o <= o_ w) ws /\ covered between line o (o + n) ws /\ macro_word alias (al = true) o (firstn n (skipn o line)) ws.
Proof.
  intros H1 H2 NP. unfold command_words. cbv zeta. set (text := firstn n (skipn o line)).
  assert (LT : length text = n) by (unfold text; rewrite firstn_length, skipn_length; lia).
  pose proof (first_word_run text) as FW. set (name := firstn (run (fun x => negb (blank x)) text) text) in *.
  assert (LN : length name <= n) by (unfold name; rewrite firstn_length; lia).
  set (is_al := Nat.ltb 0 (length name) && al && alias name).
  set (bl := run blank (skipn (o + length name) (firstn stop line))).
  assert (BL : bl <= stop - (o + length name)).
  { unfold bl. pose proof (run_le blank (skipn (o + length name) (firstn stop line))) as R. rewrite skipn_length, firstn_length in R. lia. }
  assert (BB : forall i, o + length name <= i < o + length name + bl -> between (BYTE line i)).
  { intros i I. pose proof (run_in blank (skipn (o + length name) (firstn stop line)) (i - (o + length name)) ltac:(fold bl; lia)) as R.
    rewrite nth_skipn, nth_firstn in R by lia. replace (o + length name + (i - (o + length name))) with i in R by lia. apply blank_between, blank_iff, R. }
  set (dl := if is_al then length name + bl else 0).
  set (len := if Nat.leb (o + n) stop && Nat.leb (o + dl) stop && Nat.leb dl n then n - dl else 0).
  set (old := Nat.ltb 0 (length name) && deprecated name).
  destruct (words_cover (at_ line (o + dl + len)) (negb is_al) (firstn len (skipn (o + dl) line))) as (ts & E & WO). rewrite E.
  pose proof E as E0. unfold words in E. apply (words_fair _ (firstn len (skipn (o + dl) line))) in E; [|reflexivity].
  assert (DL : o + dl <= stop) by (unfold dl; destruct is_al; lia).
  assert (LE : len = n - dl).
  { unfold len. replace (Nat.leb (o + n) stop) with true by lia. replace (Nat.leb (o + dl) stop) with true by lia. cbn [andb].
    destruct (Nat.leb dl n) eqn:B; [reflexivity|]. apply Nat.leb_gt in B. lia. }
  assert (FN : length (firstn len (skipn (o + dl) line)) = len) by (rewrite firstn_length, skipn_length; lia).
  pose proof (words_toks line (o + dl) _ _ _ WO (skipn len (skipn (o + dl) line))) as TK. rewrite FN, Nat.add_0_r in TK.
  specialize (TK ltac:(symmetry; apply firstn_skipn) ltac:(lia)).
  assert (TK' : toks line (o + dl) (o + dl) (o + dl + len) ts).
  { apply TK. eapply Forall_impl; [|exact E]. intros t T L. cbv beta in T. unfold fair in T. rewrite nth_firstn, nth_skipn in T by lia. exact T. }
  clear TK. assert (ALIAS : is_al = true -> macro_word alias (al = true) o text (mkw o (length name) true true false false false :: all_tokens line (o + n) (o + dl) old (negb is_al) ts) \/
      ~ Forall (fun x => is_alias x = false) (all_tokens line (o + n) (o + dl) old (negb is_al) ts)).
  { intros A. unfold is_al in A. apply andb_true_iff in A as [A A3]. apply andb_true_iff in A as [A1 A2].
    set (rest := all_tokens _ _ _ _ _ _).
    destruct (Forall_dec (fun x => is_alias x = false) (fun x => bool_dec (is_alias x) false) rest) as [F|F]; [left|right; exact F].
    left. exists name, rest. split; [exact A2|]. split; [exact FW|]. split; [intros ->; discriminate|]. auto. }
  assert (NAME : forall i, o <= i < o + length name -> exists w, In w [mkw o (length name) true true false false false] /\ o_ w <= i < end_of w).
  { intros i I. eexists. split; [left; reflexivity|]. unfold end_of. cbn [o_ n_]. lia. }
  eexists. split; [reflexivity|]. destruct is_al eqn:IA.
  - cbn [negb app]. specialize (ALIAS eq_refl). cbn [negb] in ALIAS.
    assert (TOK : laid_out line (o + length name) (o + n) (all_tokens line (o + n) (o + dl) old false ts) /\
                  covered between line (o + length name) (o + n) (all_tokens line (o + n) (o + dl) old false ts) /\
                  Forall (fun x => is_alias x = false) (all_tokens line (o + n) (o + dl) old false ts) /\
                  Forall (fun x => command_word x = false) (all_tokens line (o + n) (o + dl) old false ts)).
    { destruct (Nat.leb dl n) eqn:DN.
      - replace (o + dl + len) with (o + n) in TK' by lia.
        destruct (all_tokens_ok line (o + dl) (o + n) old ltac:(lia) ts false (o + dl) (o + dl) TK') as (X1 & X2 & X3 & X4); [lia|lia|lia|].
        split; [apply laid_mono with (lo := o + dl); [unfold dl; lia|exact X1]|]. split.
        + intros i I. destruct (Nat.ltb i (o + dl)) eqn:B; [right; apply BB; unfold dl in B; lia|]. apply X2. lia.
        + split; [exact X3|]. destruct X4 as [->|(w & r & -> & Y1 & Y2)]; [constructor|]. constructor; auto.
      - assert (L0 : len = 0) by lia. assert (TN : ts = []).
        { rewrite L0 in E0. cbn in E0. congruence. }
        subst ts. cbn [all_tokens]. split; [cbn [laid_out]; lia|]. split; [|split; constructor].
        intros i I. right. apply BB. unfold dl in DN. lia. }
    destruct TOK as (X1 & X2 & X3 & X4). destruct ALIAS as [ALIAS|ALIAS]; [|contradiction].
    split; [right; eexists _, _; split; [reflexivity|]; split; [reflexivity|exact X4]|].
    assert (LO : laid_out line o (o + n) (mkw o (length name) true true false false false :: all_tokens line (o + n) (o + dl) old false ts)).
    { cbn [laid_out end_of]. unfold end_of. cbn [o_ n_]. split; [left; lia|]. split; [lia|]. split; [lia|exact X1]. }
    split; [exact LO|]. split; [apply (laid_from line (o + n) o NP _ o); [lia|exact LO]|]. split; [|exact ALIAS].
    intros i I. destruct (Nat.ltb i (o + length name)) eqn:B.
    + left. destruct (NAME i ltac:(lia)) as (w & [W|[]] & WI). exists w. split; [left; exact W|exact WI].
    + destruct (X2 i ltac:(lia)) as [(w & W & WI)|G]; [left|right; exact G]. exists w. split; [right; exact W|exact WI].
  - cbn [negb app]. assert (DZ : dl = 0) by reflexivity. rewrite DZ in *. rewrite Nat.add_0_r in *.
    replace (o + len) with (o + n) in TK' by lia.
    destruct (all_tokens_ok line o (o + n) old ltac:(lia) ts true o o TK') as (X1 & X2 & X3 & X4); [lia|lia|lia|].
    split. { destruct X4 as [->|(w & r & EW & Y1 & Y2)]; [left; reflexivity|right; exists w, r; auto]. }
    split; [exact X1|]. split; [apply (laid_from line (o + n) o NP _ o); [lia|exact X1]|]. split; [exact X2|].
    right. split; [|exact X3]. intros nm A F NE. rewrite (first_word_unique _ _ _ F FW). unfold is_al in IA.
    rewrite A in IA. rewrite (first_word_unique _ _ _ F FW) in NE. destruct name; [congruence|]. cbn in IA. exact IA.
Qed.
End Words.
