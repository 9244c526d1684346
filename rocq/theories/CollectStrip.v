(** Proofs about CollectModel: the quotes around the words. *)
From Verif Require Import Base DoskeyModel DoskeySpec DoskeyProofs CmdTokModel CmdTokSpec CmdTokProofs CmdTokRem CmdTokLoop CmdTokCommands CmdTokWords CmdTokProperties
  CollectModel CollectSpec CollectProofs CollectTokens CollectWords CollectAll.

Definition pl (q skip : bool) : place := if q then Quoted else if skip then Escaped else Plain.
Lemma quote_loop_app : forall w v i q s e, (s = true -> q = false) -> e < i ->
  exists q1 s1 e1, quote_loop (w ++ v) i q s e = quote_loop v (i + length w) q1 s1 e1 /\ (s1 = true -> q1 = false) /\ e1 < i + length w /\
    pl q1 s1 = fold_left step w (pl q s).
Proof.
  induction w as [|c w IH]; intros v i q s e S E.
  - exists q, s, e. cbn [app length fold_left]. rewrite Nat.add_0_r. auto.
  - cbn [app quote_loop length fold_left]. replace (i + Datatypes.S (length w)) with (Datatypes.S i + length w) by lia.
    change QUOTE with DQ. destruct s.
    + rewrite (S eq_refl) in *. cbn [pl step]. exact (IH v (Datatypes.S i) false false e ltac:(discriminate) ltac:(lia)).
    + destruct (ceq c DQ) eqn:C.
      * assert (ST : step (pl q false) c = pl (negb q) false) by (destruct q; cbn [pl step negb]; unfold ceq in C; rewrite C; reflexivity).
        rewrite ST. apply IH; [discriminate|destruct q; lia].
      * assert (ST : step (pl q false) c = pl q (negb q && ceq c "^")).
        { unfold ceq in *. destruct q; cbn [pl step negb andb]; rewrite C; [reflexivity|]. destruct (Ascii.eqb c "^"); reflexivity. }
        rewrite ST. apply IH; [|lia]. destruct q; [discriminate|auto].
Qed.

Lemma quote_loop_closes w c : let '(q, e) := quote_loop (w ++ [c]) 1 true false 0 in
  negb q && Nat.eqb (e + 1) (S (length (w ++ [c]))) = true <-> c = DQ /\ place_after (DQ :: w) = Quoted.
Proof.
  destruct (quote_loop_app w [c] 1 true false 0) as (q1 & s1 & e1 & E & S & L & P); [discriminate|lia|]. rewrite E. rewrite app_length. cbn [length].
  assert (PA : place_after (DQ :: w) = pl q1 s1) by (rewrite P; reflexivity). rewrite PA.
  cbn [quote_loop]. destruct s1.
  - rewrite (S eq_refl). cbn [pl negb andb]. rewrite Nat.eqb_eq. split; [lia|]. intros [_ X]. discriminate.
  - change QUOTE with DQ. destruct (ceq c DQ) eqn:C.
    + apply ceq_iff in C. destruct q1; cbn [pl negb andb].
      * rewrite Nat.eqb_eq. split; [auto|lia].
      * split; [discriminate|]. intros [_ X]. discriminate.
    + assert (c <> DQ) by (intros ->; discriminate). split; [|intros [X _]; contradiction].
      rewrite andb_true_iff, Nat.eqb_eq. lia.
Qed.

Lemma text_cons line w : 0 < n_ w -> end_of w <= length line -> text_of line w = at_ line (o_ w) :: tl (text_of line w) /\ length (text_of line w) = n_ w.
Proof.
  intros N E. unfold end_of in E. assert (L : length (text_of line w) = n_ w) by (unfold text_of; rewrite firstn_length, skipn_length; lia). split; [|exact L].
  assert (A : at_ line (o_ w) = nth 0 (text_of line w) NUL).
  { unfold text_of, at_. rewrite nth_firstn, nth_skipn by lia. f_equal. lia. }
  rewrite A. destruct (text_of line w); [cbn [length] in L; lia|reflexivity].
Qed.

Lemma firstn_firstn_le (l : bytes) a b : a <= b -> firstn a l = firstn a (firstn b l).
Proof. intros L. rewrite firstn_firstn. f_equal. lia. Qed.

Definition shrunk (line : bytes) (w w' : word) : Prop :=
  o_ w <= o_ w' /\ end_of w' <= end_of w /\ (forall i, o_ w <= i < end_of w -> o_ w' <= i < end_of w' \/ BYTE line i = DQ) /\
  (o_ w = o_ w' \/ BYTE line (o_ w) = DQ) /\ (end_of w = end_of w' \/ (S (end_of w') = end_of w /\ BYTE line (end_of w') = DQ /\ quoted w' = true)) /\
  (if quoted w' then S (o_ w) = o_ w' else o_ w = o_ w').

Lemma strip_ok line w : end_of w <= length line -> quoted w = false -> stripped line w (strip_quotes line w) /\ shrunk line w (strip_quotes line w).
Proof.
  intros EN QF. unfold stripped, strip_quotes. destruct (Nat.eqb (n_ w) 0 || is_alias w) eqn:Z.
  { split; [auto|]. unfold shrunk. split; [lia|]. split; [lia|]. split; [intros i I; left; lia|]. split; [auto|]. split; [auto|]. rewrite QF. reflexivity. }
  apply orb_false_iff in Z as [Z _]. apply Nat.eqb_neq in Z. destruct (text_cons line w ltac:(lia) EN) as [TC TL]. unfold end_of in EN.
  cbv zeta. fold (text_of line w). change QUOTE with DQ.
  destruct (ceq (at_ line (o_ w)) DQ) eqn:SQ.
  - (* an opening quote *)
    apply ceq_iff in SQ. rewrite SQ in TC. set (v := tl (text_of line w)) in *.
    assert (LV : S (length v) = n_ w) by (rewrite <- TL, TC; reflexivity).
    assert (VV : v = firstn (n_ w - 1) (skipn (o_ w + 1) line)).
    { unfold v, text_of. destruct (n_ w) as [|m] eqn:M; [lia|]. rewrite <- skipn_twice. destruct (skipn (o_ w) line) as [|x l] eqn:SK; [destruct m; reflexivity|].
      cbn [firstn tl skipn]. replace (S m - 1) with m by lia. reflexivity. }
    set (eq := if _ && _ then _ else false).
    assert (EQ : eq = true <-> exists u, v = u ++ [DQ] /\ place_after (DQ :: u) = Quoted).
    { unfold eq. destruct v as [|c u _] eqn:V using rev_ind.
      - assert (N1 : n_ w = 1) by (cbn [length] in LV; lia). rewrite N1. cbn. split; [discriminate|]. intros (u & X & _). destruct u; discriminate.
      - rewrite app_length in LV. cbn [length] in LV. replace (Nat.ltb 1 (n_ w)) with true by lia. cbn [andb].
        assert (LC : at_ line (o_ w + n_ w - 1) = c).
        { unfold at_. replace (o_ w + n_ w - 1) with ((o_ w + 1) + (n_ w - 2)) by lia. rewrite <- nth_skipn, <- (nth_firstn _ (n_ w - 1)) by lia. rewrite <- VV.
          replace (n_ w - 2) with (length u + 0) by lia. rewrite nth_app_at. reflexivity. }
        rewrite LC. pose proof (quote_loop_closes u c) as Q. destruct (quote_loop (u ++ [c]) 1 true false 0) as [q e].
        rewrite app_length in Q. cbn [length] in Q. replace (S (length u + 1)) with (n_ w) in Q by lia.
        destruct (ceq c DQ) eqn:C.
        + apply ceq_iff in C. rewrite Q. split.
          * intros [_ X]. exists u. rewrite C. auto.
          * intros (u' & X & Y). apply app_inj_tail in X as [-> _]. auto.
        + split; [discriminate|]. intros (u' & X & Y). apply app_inj_tail in X as [_ X]. rewrite X in C. discriminate. }
    destruct eq.
    + destruct (proj1 EQ eq_refl) as (u & VE & PA). rewrite VE, app_length in LV. cbn [length] in LV.
      assert (TX : firstn (n_ w - 1 - 1) (skipn (o_ w + 1) line) = u).
      { rewrite (firstn_firstn_le _ _ (n_ w - 1)) by lia. rewrite <- VV, VE. apply firstn_app_exact. lia. }
      split.
      * cbn [command_word is_alias redir builtin quoted]. split; [reflexivity|]. split; [reflexivity|]. split; [reflexivity|]. split; [reflexivity|].
        right. split; [reflexivity|]. exists v. split; [exact TC|]. left. exists u. split; [exact VE|]. split; [exact PA|]. unfold text_of. cbn [o_ n_]. exact TX.
      * assert (LD : BYTE line (o_ w + n_ w - 1) = DQ).
        { replace (o_ w + n_ w - 1) with ((o_ w + 1) + (n_ w - 2)) by lia. rewrite <- nth_skipn, <- (nth_firstn _ (n_ w - 1)) by lia. rewrite <- VV, VE.
          replace (n_ w - 2) with (length u + 0) by lia. rewrite nth_app_at. reflexivity. }
        unfold shrunk, end_of. cbn [o_ n_ quoted]. split; [lia|]. split; [lia|]. split.
        { intros i I. destruct (Nat.eqb i (o_ w)) eqn:B1; [right; apply Nat.eqb_eq in B1; subst i; exact SQ|].
          destruct (Nat.eqb i (o_ w + n_ w - 1)) eqn:B2; [right; apply Nat.eqb_eq in B2; subst i; exact LD|left; lia]. }
        split; [right; exact SQ|]. split; [right; split; [lia|]; split; [|reflexivity]|lia].
        rewrite <- LD. f_equal. lia.
    + split.
      * cbn [command_word is_alias redir builtin quoted]. split; [reflexivity|]. split; [reflexivity|]. split; [reflexivity|]. split; [reflexivity|].
        right. split; [reflexivity|]. exists v. split; [exact TC|]. right. split.
        -- unfold text_of. cbn [o_ n_]. rewrite Nat.sub_0_r. symmetry. exact VV.
        -- intros X. apply EQ in X. discriminate.
      * unfold shrunk, end_of. cbn [o_ n_ quoted]. split; [lia|]. split; [lia|]. split.
        { intros i I. destruct (Nat.eqb i (o_ w)) eqn:B1; [right; apply Nat.eqb_eq in B1; subst i; exact SQ|left; lia]. }
        split; [right; exact SQ|]. split; [left; lia|lia].
  - cbn [andb]. split.
    + cbn [command_word is_alias redir builtin quoted]. split; [reflexivity|]. split; [reflexivity|]. split; [reflexivity|]. split; [reflexivity|].
      left. split; [reflexivity|]. split.
      * unfold text_of. cbn [o_ n_]. rewrite Nat.add_0_r, !Nat.sub_0_r. reflexivity.
      * intros r X. rewrite TC in X. injection X as X _. rewrite X in SQ. discriminate.
    + unfold shrunk, end_of. cbn [o_ n_ quoted]. split; [lia|]. split; [lia|]. split; [intros i I; left; lia|]. split; [left; lia|]. split; [left; lia|lia].
Qed.

(** ** The order and the coverage stay *)
Lemma strip_laid line : forall ws lo hi, hi <= length line -> Forall (fun w => quoted w = false) ws -> laid_out line lo hi ws ->
  laid_out line lo hi (map (strip_quotes line) ws).
Proof.
  induction ws as [|w ws IH]; intros lo hi H Q L; [exact L|]. cbn [map laid_out] in *. destruct L as (L1 & L2 & L3 & L4).
  destruct (strip_ok line w ltac:(lia) (Forall_inv Q)) as [_ (S1 & S2 & S3 & S4 & S5 & S6)].
  pose proof (IH _ _ H (Forall_inv_tail Q) L4) as R. set (w' := strip_quotes line w) in *.
  assert (W' : o_ w' <= end_of w') by (unfold end_of; lia).
  split; [|split; [|split; [lia|]]].
  - destruct L1 as [L1|(X1 & X2 & X3 & X4)]; [left; lia|]. destruct S4 as [S4|S4]; [rewrite <- S4; right; auto|]. rewrite X2 in S4. discriminate.
  - destruct S5 as [S5|(S5 & S7 & S8)]; [lia|]. rewrite S8 in S6.
    destruct L1 as [L1|(X1 & X2 & X3 & X4)]; [lia|]. destruct S4 as [S4|S4]; [lia|]. rewrite X2 in S4. discriminate.
  - apply laid_mono with (lo := end_of w); [exact S2|exact R].
Qed.
Lemma strip_covered (gp : byte -> Prop) line lo hi ws : Forall (fun w => quoted w = false /\ end_of w <= length line) ws -> covered gp line lo hi ws ->
  covered (fun c => gp c \/ c = DQ) line lo hi (map (strip_quotes line) ws).
Proof.
  intros F C i I. destruct (C i I) as [(w & W & WI)|X]; [|right; left; exact X]. rewrite Forall_forall in F. destruct (F w W) as [F1 F2].
  destruct (strip_ok line w F2 F1) as [_ (S1 & S2 & S3 & _)]. destruct (S3 i WI) as [X|X]; [left|right; right; exact X].
  exists (strip_quotes line w). split; [apply in_map; exact W|exact X].
Qed.
