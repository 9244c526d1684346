(** C67: the words handed on, command by command. *)
From Verif Require Import Base DoskeyModel DoskeySpec DoskeyProofs CmdTokModel CmdTokSpec CmdTokProofs CmdTokRem CmdTokLoop CmdTokCommands CmdTokWords CmdTokProperties
  CollectModel CollectSpec CollectProofs CollectTokens CollectWords CollectAll CollectStrip CollectRaw CollectProperties CollectStates.

(** The last command ends at the end of what is looked at, or at a closing parenthesis. *)
Lemma last_ends line stop : forall cs first lo, in_order line stop first lo cs -> cs <> [] -> stop <= length line ->
  exists o n, In (o, n) cs /\ (o + n = stop \/ (o + n < stop /\ BYTE line (o + n) = ")"%char)).
Proof.
  induction cs as [|[o n] cs IH]; intros first lo H N SL; [congruence|]. cbn [in_order] in H. destruct H as (H1 & H2 & H3 & H4 & H5). destruct cs as [|c cs].
  - exists o, n. split; [left; reflexivity|]. cbn [in_order] in H5. destruct H5 as (_ & H6 & [H7|H7]); [left; exact H7|]. destruct (Nat.eq_dec (o + n) stop) as [E|E]; [left; exact E|right]. split; [lia|exact H7].
  - destruct (IH _ _ H5 ltac:(discriminate) SL) as (a & b & I & X). exists a, b. split; [right; exact I|exact X].
Qed.

Lemma parted line stop cursor stopc dots lookup alias deprecated enhanced cs ws k : cursor <= length line -> stop = stop_of line cursor stopc ->
  collect lookup alias deprecated enhanced dots line cursor stopc = Some (cs, ws, k) ->
  (~ In ")"%char (firstn stop line) \/ (forall a w, ws = a ++ [w] -> quoted w = false -> n_ w = 0 -> command_word w = false)) ->
  exists sts, set_states line cs ws = Some sts /\ map unmark (concat (map l_words sts)) = ws /\ Forall (state_ok cursor cs) sts /\ ascending 0 sts.
Proof.
  intros CL -> C HY. destruct (raw_ok lookup alias deprecated enhanced dots line cursor stopc CL) as (cs' & gs & tail & E & NE & IO & FO & G & T & FR).
  unfold collect in C. rewrite E in C. injection C as <- <- <-. fold (stop_of line cursor stopc) in IO. set (stop := stop_of line cursor stopc) in *.
  assert (SL : stop <= length line) by (unfold stop, stop_of; destruct stopc; lia).
  assert (CS : cursor <= stop) by (unfold stop, stop_of; destruct stopc; lia).
  rewrite map_app, concat_map. rewrite map_app, concat_map in HY. unfold set_states.
  set (gs2 := map (map (strip_quotes line)) gs) in *. set (tail2 := map (strip_quotes line) tail) in *. apply Forall_app in FR as [FR FT].
  assert (LE : is_nil (last gs2 []) = is_nil (last gs [])).
  { unfold gs2. clear. destruct gs as [|g gs _] using rev_ind; [reflexivity|]. rewrite map_app. cbn [map]. rewrite !last_last. destruct g; reflexivity. }
  assert (CN : concat gs = [] -> concat gs2 = []) by (intros X; unfold gs2; rewrite <- concat_map, X; reflexivity).
  assert (PL : Forall2 placed cs' gs2).
  { assert (EN : forall o n, In (o, n) (map fst cs') -> o + n <= length line) by (intros o n I; pose proof (in_order_stop _ _ _ _ _ IO o n I); lia).
    unfold gs2. clear - G FR EN. induction G as [|[[o n] al] g cs gs Gg G IH]; [constructor|]. cbn [concat] in FR. apply Forall_app in FR as [FR1 FR2].
    cbn [map]. constructor; [|apply IH; [exact FR2|intros o' n' I; apply EN; right; exact I]]. specialize (EN o n (or_introl eq_refl)).
    destruct Gg as [(M & LO & FO2) _].
    assert (ST : forall w, In w g -> shrunk line w (strip_quotes line w) /\ command_word (strip_quotes line w) = command_word w).
    { intros w W. rewrite Forall_forall in FR1. destruct (strip_ok line w) as [X Y]; [pose proof (laid_In _ _ _ _ _ LO W); lia|exact (proj1 (FR1 w W))|]. split; [exact Y|exact (proj1 X)]. }
    split.
    - destruct M as [->|(w & r & -> & M1 & M2)]; [left; reflexivity|right]. cbn [map]. eexists _, _. split; [reflexivity|].
      split; [rewrite (proj2 (ST w (or_introl eq_refl))); exact M1|].
      apply Forall_map. rewrite Forall_forall in M2 |- *. intros x X. rewrite (proj2 (ST x (or_intror X))). exact (M2 x X).
    - apply Forall_map. rewrite Forall_forall in FO2 |- *. intros x X. specialize (FO2 x X). cbv beta in FO2. pose proof (laid_In _ _ _ _ _ LO X) as LX.
      destruct (ST x X) as [(S1 & S2 & S3 & S4 & S5 & S6) _]. unfold start_of. destruct (quoted (strip_quotes line x)); lia. }
  assert (BI : Forall (fun w => builtin w = false) (concat gs2)).
  { unfold gs2. rewrite <- concat_map. apply Forall_map. eapply Forall_impl; [|exact FR]. intros w [_ X]. unfold strip_quotes. destruct (_ || _); [exact X|]. cbv zeta. exact X. }
  apply (states_ok line stop cursor cs' gs2 tail2 true 0 IO PL BI).
  unfold end_ok. destruct T as [(-> & _)|(-> & T)]; [left; reflexivity|right].
  set (e := mkw cursor 0 (is_nil (last gs [])) false false false false) in *. assert (T2 : tail2 = [e]) by reflexivity.
  exists e. split; [exact T2|]. split; [reflexivity|]. split; [reflexivity|]. split; [reflexivity|]. split; [reflexivity|]. split; [unfold e; cbn [command_word]; symmetry; exact LE|].
  split; [destruct T as [T|(-> & _)]; [left; exact (CN T)|right; reflexivity]|].
  intros CW. destruct HY as [HY|HY].
  - destruct (last_ends line stop (map fst cs') true 0 IO) as (o & n & I & X); [destruct cs'; [congruence|discriminate]|exact SL|].
    apply in_map_iff in I as ([[o' n'] al] & EQ & I). injection EQ as -> ->. exists o, n, al. split; [exact I|]. pose proof (left_le line cursor).
    destruct X as [X|[X1 X2]]; [lia|]. exfalso. apply HY. rewrite <- X2. unfold BYTE. rewrite <- (nth_firstn line stop) by exact X1. apply nth_In. rewrite firstn_length. lia.
  - exfalso. specialize (HY (concat gs2) e). rewrite T2 in HY. specialize (HY eq_refl eq_refl eq_refl). congruence.
Qed.

(** Every word collected is handed on, in order, in the state of one command, and a state's words are in its command but for an empty one
    at the cursor.  The states' commands come in order and do not touch.  So it is unless a command of the line ends with a parenthesis
    and nothing is typed behind it. *)
Theorem states_part_words lookup alias deprecated enhanced dots line cursor stopc cs ws k : cursor <= length line ->
  collect lookup alias deprecated enhanced dots line cursor stopc = Some (cs, ws, k) ->
  (~ In ")"%char (firstn (stop_of line cursor stopc) line) \/ (forall a w, ws = a ++ [w] -> quoted w = false -> n_ w = 0 -> command_word w = false)) ->
  exists sts, set_states line cs ws = Some sts /\ map unmark (concat (map l_words sts)) = ws /\ Forall (state_ok cursor cs) sts /\ ascending 0 sts.
Proof. intros CL C H. exact (parted line _ cursor stopc dots lookup alias deprecated enhanced cs ws k CL eq_refl C H). Qed.
Print Assumptions states_part_words.

(** Which words of a state are marked as built in: at most one, the first that is not a redirection's, and exactly when it is neither
    quoted nor a macro and names a command of the shell. *)
Definition builtin_right (line : bytes) (ws : list word) : Prop :=
  (Forall (fun x => redir x = true /\ builtin x = false) ws) \/
  (exists a w b, ws = a ++ w :: b /\ Forall (fun x => redir x = true /\ builtin x = false) a /\ redir w = false /\ Forall (fun x => builtin x = false) b /\
     (builtin w = true <-> quoted w = false /\ is_alias w = false /\ exists c, is_cmd_command (text_of line w) = Some c)).
Lemma mark_right line : forall ws, Forall (fun x => builtin x = false) ws -> builtin_right line (mark_builtin line ws).
Proof.
  induction ws as [|w ws IH]; intros F; [left; constructor|]. pose proof (Forall_inv F) as FW. cbv beta in FW. specialize (IH (Forall_inv_tail F)). cbn [mark_builtin]. destruct (redir w) eqn:R.
  - destruct IH as [IH|(a & x & b & E & A & X)]; [left; constructor; auto|right]. exists (w :: a), x, b. rewrite E. split; [reflexivity|]. split; [constructor; auto|exact X].
  - right. fold (text_of line w). destruct (is_cmd_command (text_of line w)) as [c|] eqn:C.
    + destruct (quoted w) eqn:Q; [|destruct (is_alias w) eqn:AL]; cbn [negb andb].
      * exists [], w, ws. split; [reflexivity|]. split; [constructor|]. split; [exact R|]. split; [exact (Forall_inv_tail F)|]. split; [congruence|]. intros (X & _). congruence.
      * exists [], w, ws. split; [reflexivity|]. split; [constructor|]. split; [exact R|]. split; [exact (Forall_inv_tail F)|]. split; [congruence|]. intros (_ & X & _). congruence.
      * eexists [], _, ws. split; [reflexivity|]. split; [constructor|]. cbn [redir builtin quoted is_alias]. split; [reflexivity|]. split; [exact (Forall_inv_tail F)|].
        split; [|reflexivity]. intros _. split; [reflexivity|]. split; [reflexivity|]. exists c. exact C.
    + rewrite andb_false_r. exists [], w, ws. split; [reflexivity|]. split; [constructor|]. split; [exact R|]. split; [exact (Forall_inv_tail F)|].
      split; [congruence|]. intros (_ & _ & c & X). congruence.
Qed.
Lemma groups_In : forall ws g, In g (groups ws) -> g <> [] /\ (forall x, In x g -> In x ws) /\ Forall (fun x => command_word x = false) (tl g).
Proof.
  induction ws as [|w ws IH]; intros g I; [destruct I|]. cbn [groups] in I. destruct (groups ws) as [|h gs] eqn:E.
  - destruct I as [<-|[]]. split; [discriminate|]. split; [intros x [<-|[]]; left; reflexivity|constructor].
  - destruct (IH h (or_introl eq_refl)) as (N & IN & T). destruct h as [|x h]; [congruence|].
    assert (OLD : In g ((x :: h) :: gs) -> g <> [] /\ (forall y, In y g -> In y (w :: ws)) /\ Forall (fun x => command_word x = false) (tl g)).
    { intros J. destruct (IH g J) as (N' & IN' & T'). split; [exact N'|]. split; [intros y Y; right; exact (IN' y Y)|exact T']. }
    destruct (command_word x) eqn:CX.
    + destruct I as [<-|I]; [|exact (OLD I)]. split; [discriminate|]. split; [intros y [<-|[]]; left; reflexivity|constructor].
    + destruct I as [<-|I]; [|apply OLD; right; exact I]. split; [discriminate|]. split; [intros y [<-|Y]; [left; reflexivity|right; exact (IN y Y)]|]. cbn [tl] in *. constructor; assumption.
Qed.
Lemma groups_marked : forall ws, (forall w r, ws = w :: r -> command_word w = true) -> Forall marked (groups ws).
Proof.
  assert (G : forall ws, Forall marked (tl (groups ws)) /\ forall g t, groups ws = g :: t -> exists w r r', g = w :: r /\ ws = w :: r').
  { induction ws as [|w ws [IH1 IH2]]; [split; [constructor|discriminate]|]. cbn [groups]. destruct (groups ws) as [|h gs] eqn:E.
    - split; [constructor|]. intros g t X. injection X as <- _. exists w, [], ws. auto.
    - destruct (IH2 h gs eq_refl) as (x & r & r' & -> & ->). destruct (groups_In (x :: r') (x :: r)) as (_ & _ & T); [rewrite E; left; reflexivity|]. cbn [tl] in *. destruct (command_word x) eqn:CX.
      + split; [constructor; [right; exists x, r; auto|exact IH1]|]. intros g t X. injection X as <- _. exists w, [], (x :: r'). auto.
      + split; [exact IH1|]. intros g t X. injection X as <- _. exists w, (x :: r), (x :: r'). auto. }
  intros ws H. destruct (G ws) as [G1 G2]. destruct (groups ws) as [|g t] eqn:E; [constructor|]. destruct (G2 g t eq_refl) as (w & r & r' & -> & ->).
  destruct (groups_In (w :: r') (w :: r)) as (_ & _ & T); [rewrite E; left; reflexivity|]. constructor; [right; exists w, r; split; [reflexivity|split; [exact (H w r' eq_refl)|exact T]]|exact G1].
Qed.
Lemma states_each line (P : list word -> Prop) (Q : line_state -> Prop) :
  (forall w r a n, P (w :: r) -> Q (mkl (char_offset_of line w) a n (mark_builtin line (w :: r)))) ->
  forall gs cs sts, Forall P gs -> line_states line cs gs = Some sts -> Forall Q sts.
Proof.
  intros H. induction gs as [|g gs IH]; intros cs sts F E; [injection E as <-; constructor|]. destruct g as [|w r]; [discriminate|].
  cbn [line_states] in E. destruct (seek cs (char_offset_of line w)) as [[|[[a n] al] cs']|]; try discriminate.
  destruct (line_states line ((a, n, al) :: cs') gs) as [l|] eqn:E2; [|discriminate]. injection E as <-.
  constructor; [exact (H w r a n (Forall_inv F))|exact (IH ((a, n, al) :: cs') l (Forall_inv_tail F) E2)].
Qed.

(** A state's first word, and no other, is its command word, at its command offset or behind the one space there; the word marked as
    built in is the right one. *)
Definition first_right (line : bytes) (st : line_state) : Prop :=
  exists w r, l_words st = w :: r /\ command_word w = true /\ Forall (fun x => command_word x = false) r /\
    (char_offset st = start_of w \/ (S (char_offset st) = start_of w /\ BYTE line (char_offset st) = SPC /\ (char_offset st = 0 \/ BYTE line (char_offset st - 1) = SPC))).
Lemma collect_head lookup alias deprecated enhanced dots line cursor stopc cs ws k : cursor <= length line ->
  collect lookup alias deprecated enhanced dots line cursor stopc = Some (cs, ws, k) -> (forall w r, ws = w :: r -> command_word w = true) /\ Forall (fun x => builtin x = false) ws.
Proof.
  intros CL C. destruct (raw_ok lookup alias deprecated enhanced dots line cursor stopc CL) as (cs' & gs & tail & E & NE & IO & FO & G & T & FR).
  unfold collect in C. rewrite E in C. injection C as <- <- <-. split.
  - intros w r EQ. assert (CWS : forall x, command_word (strip_quotes line x) = command_word x) by (intros x; unfold strip_quotes; destruct (_ || _); reflexivity).
    assert (RAW : forall x y, concat gs ++ tail = x :: y -> command_word x = true).
    { intros x y X. destruct T as [(-> & _)|(-> & T)].
      - rewrite app_nil_r in X. clear - G X. induction G as [|[[o n] al] g cs gs Gg G IH]; [discriminate|]. cbn [concat] in X. destruct Gg as [(M & _) _].
        destruct M as [->|(w & r & -> & M & _)]; [exact (IH X)|]. injection X as <- _. exact M.
      - destruct T as [T|(_ & zs & z & T & _)].
        + rewrite T in X. cbn [app] in X. injection X as <- _. cbn [command_word]. rewrite (concat_nil_last _ T). reflexivity.
        + assert (X2 : exists y', concat gs = x :: y') by (destruct (concat gs) as [|a b]; [destruct zs; discriminate|]; injection X as <- _; exists b; reflexivity).
          destruct X2 as (y' & X2). clear - G X2. revert X2. induction G as [|[[o n] al] g cs gs Gg G IH]; [discriminate|]. intros X. cbn [concat] in X. destruct Gg as [(M & _) _].
          destruct M as [->|(w & r & -> & M & _)]; [exact (IH X)|]. injection X as <- _. exact M. }
    destruct (concat gs ++ tail) as [|x y] eqn:X; [discriminate|]. cbn [map] in EQ. injection EQ as <- _. rewrite CWS. exact (RAW x y eq_refl).
  - apply Forall_map. eapply Forall_impl; [|exact FR]. intros w [_ X]. unfold strip_quotes. destruct (_ || _); exact X.
Qed.
Theorem states_command_word lookup alias deprecated enhanced dots line cursor stopc cs ws k sts : cursor <= length line ->
  collect lookup alias deprecated enhanced dots line cursor stopc = Some (cs, ws, k) -> set_states line cs ws = Some sts ->
  Forall (fun st => first_right line st /\ builtin_right line (l_words st)) sts.
Proof.
  intros CL C E. destruct (collect_head _ _ _ _ _ _ _ _ _ _ _ CL C) as [CH CB].
  apply (states_each line (fun g => marked g /\ Forall (fun x => builtin x = false) g)) with (gs := groups ws) (cs := cs); [| |exact E].
  - intros w r a n [M F]. split; [|cbn [l_words]; apply mark_right; exact F]. unfold first_right. cbn [l_words char_offset].
    destruct M as [M|(w' & r' & EQ & M1 & M2)]; [discriminate|]. injection EQ as <- <-.
    assert (OF : char_offset_of line w = start_of w \/ (S (char_offset_of line w) = start_of w /\ BYTE line (char_offset_of line w) = SPC /\ (char_offset_of line w = 0 \/ BYTE line (char_offset_of line w - 1) = SPC))).
    { rewrite char_offset_start. unfold left_of. destruct (Nat.eqb (start_of w) 1 && ceq (at_ line 0) SPC) eqn:A.
      - apply andb_true_iff in A as [A1 A2]. apply Nat.eqb_eq in A1. apply ceq_iff in A2. right. rewrite A1. split; [reflexivity|]. split; [exact A2|left; reflexivity].
      - destruct (Nat.leb 2 (start_of w) && ceq (at_ line (start_of w - 1)) SPC && ceq (at_ line (start_of w - 2)) SPC) eqn:B; [right|left; reflexivity].
        apply andb_true_iff in B as [B B3]. apply andb_true_iff in B as [B1 B2]. apply ceq_iff in B2, B3. apply Nat.leb_le in B1. split; [lia|]. split; [exact B2|right].
        replace (start_of w - 1 - 1) with (start_of w - 2) by lia. exact B3. }
    cbn [mark_builtin]. destruct (redir w) eqn:R.
    + exists w, (mark_builtin line r). split; [reflexivity|]. split; [exact M1|]. split; [|exact OF]. apply mark_Forall; [intros x b X; exact X|exact M2].
    + eexists _, r. split; [reflexivity|]. split; [destruct (_ && _); exact M1|]. split; [exact M2|].
      match goal with |- context [start_of ?x] => replace (start_of x) with (start_of w) by (destruct (_ && _); reflexivity) end. exact OF.
  - apply Forall_forall. intros g I. pose proof (groups_marked ws CH) as GM. rewrite Forall_forall in GM. split; [exact (GM g I)|].
    apply Forall_forall. intros x X. destruct (groups_In ws g I) as (_ & IN & _). rewrite Forall_forall in CB. exact (CB x (IN x X)).
Qed.
Print Assumptions states_command_word.

(** ** Words for the hinter: the last word ends at the cursor, the ones before it are as they were. *)
Theorem hinter_words cursor ws :
  exists a w b, rev (split_for_hinter cursor (rev ws)) = a ++ [w] /\ ws = a ++ b /\ end_of w = cursor /\ o_ w <= cursor /\ builtin w = false /\
    ((exists x r, b = x :: r /\ o_ w = o_ x /\ cursor <= end_of x /\ command_word w = command_word x /\ quoted w = quoted x /\ is_alias w = is_alias x /\ redir w = redir x /\ Forall (fun y => cursor < o_ y) r) \/
     (n_ w = 0 /\ Forall (fun y => cursor < o_ y) b /\ (forall y c, a = c ++ [y] -> end_of y < cursor))).
Proof.
  induction ws as [|x ws IH] using rev_ind.
  - cbn [rev split_for_hinter app]. eexists [], _, []. split; [reflexivity|]. split; [reflexivity|]. unfold end_of. cbn [o_ n_ builtin]. split; [lia|]. split; [lia|]. split; [reflexivity|]. right.
    split; [reflexivity|]. split; [constructor|]. intros y c X. destruct c; discriminate.
  - rewrite rev_app_distr. cbn [rev app split_for_hinter]. destruct (Nat.ltb cursor (o_ x)) eqn:A.
    + apply Nat.ltb_lt in A. destruct IH as (a & w & b & E & EW & X1 & X2 & X3 & X4). exists a, w, (b ++ [x]). split; [exact E|]. split; [rewrite EW at 1; rewrite app_assoc; reflexivity|].
      split; [exact X1|]. split; [exact X2|]. split; [exact X3|]. destruct X4 as [(y & r & -> & Y1 & Y2 & Y3 & Y4 & Y5 & Y6 & Y7)|(Y1 & Y2 & Y3)].
      * left. exists y, (r ++ [x]). split; [reflexivity|]. split; [exact Y1|]. split; [exact Y2|]. split; [exact Y3|]. split; [exact Y4|]. split; [exact Y5|]. split; [exact Y6|].
        apply Forall_app. split; [exact Y7|constructor; [exact A|constructor]].
      * right. split; [exact Y1|]. split; [apply Forall_app; split; [exact Y2|constructor; [exact A|constructor]]|exact Y3].
    + apply Nat.ltb_ge in A. destruct (Nat.leb cursor (o_ x + n_ x)) eqn:B.
      * apply Nat.leb_le in B. eexists ws, _, [x]. cbn [rev]. rewrite rev_involutive. split; [reflexivity|]. split; [reflexivity|]. unfold end_of. cbn [o_ n_ builtin command_word quoted is_alias redir].
        split; [lia|]. split; [lia|]. split; [reflexivity|]. left. exists x, []. split; [reflexivity|]. split; [reflexivity|]. split; [exact B|]. split; [reflexivity|]. split; [reflexivity|]. split; [reflexivity|]. split; [reflexivity|constructor].
      * apply Nat.leb_gt in B. eexists (ws ++ [x]), _, []. cbn [rev]. rewrite rev_involutive. split; [reflexivity|]. split; [rewrite app_nil_r; reflexivity|].
        unfold end_of. cbn [o_ n_ builtin]. split; [lia|]. split; [lia|]. split; [reflexivity|]. right. split; [reflexivity|]. split; [constructor|].
        intros y c X. apply app_inj_tail in X as [_ <-]. exact B.
Qed.
Print Assumptions hinter_words.

(** ** Breaking the last word: what is before the break stays a word (or is dropped when asked), what is behind it is the new last word,
    of which only what a generator wants is kept; nothing before it changes. *)
Theorem broken_word line truncate keep discard ws x : end_of x <= length line -> (discard = true -> truncate <= n_ x) ->
  exists before e rest off, break_end_word truncate keep discard (rev (ws ++ [x])) = Some (rev (ws ++ before ++ [e]), off) /\ off = o_ e /\
    firstn (Nat.min truncate (n_ x)) (text_of line x) ++ text_of line e ++ rest = text_of line x /\ n_ e = Nat.min keep (n_ x - truncate) /\
    ((before = [] /\ (discard = true \/ truncate = 0)) \/
     (discard = false /\ 0 < truncate /\ command_word e = false /\ exists b, before = [b] /\ text_of line b = firstn (Nat.min truncate (n_ x)) (text_of line x) /\ o_ b = o_ x /\ command_word b = command_word x)).
Proof.
  intros EN TR. rewrite rev_app_distr. cbn [rev app break_end_word]. unfold end_of in EN.
  assert (SPLIT : forall e t, t <= n_ x -> o_ e = o_ x + t -> n_ e <= n_ x - t ->
    firstn t (text_of line x) ++ text_of line e ++ skipn (t + n_ e) (text_of line x) = text_of line x).
  { intros e t T OE NE. assert (TE : text_of line e = firstn (n_ e) (skipn t (text_of line x))).
    { unfold text_of. rewrite OE, skipn_firstn_comm, firstn_firstn, skipn_twice. rewrite (Nat.min_l (n_ e)) by lia. do 2 f_equal; lia. }
    rewrite TE, <- skipn_twice, firstn_skipn, firstn_skipn. reflexivity. }
  assert (FIN : forall e0 r, n_ e0 <= n_ x -> exists e,
     (if Nat.eqb (n_ e0) (Nat.min keep (n_ e0)) then e0 :: r else mkw (o_ e0) (Nat.min keep (n_ e0)) (command_word e0) (is_alias e0) (redir e0) (quoted e0) false :: r) = e :: r /\
     o_ e = o_ e0 /\ n_ e = Nat.min keep (n_ e0) /\ command_word e = command_word e0).
  { intros e0 r L. destruct (Nat.eqb (n_ e0) (Nat.min keep (n_ e0))) eqn:E; eexists; (split; [reflexivity|]); cbn [o_ n_ command_word]; [apply Nat.eqb_eq in E|]; auto. }
  destruct discard.
  - specialize (TR eq_refl). set (e0 := mkw _ _ _ _ _ _ _). assert (NE0 : n_ e0 = n_ x - truncate) by (unfold e0; cbn [n_]; destruct (Nat.ltb truncate (n_ x)) eqn:B; lia).
    cbv zeta. destruct (FIN e0 (rev ws) ltac:(lia)) as (e & -> & OE & NE & CE). exists [], e, (skipn (truncate + n_ e) (text_of line x)), (o_ e0).
    split; [rewrite rev_app_distr; reflexivity|]. split; [symmetry; exact OE|]. rewrite (Nat.min_l truncate (n_ x)) by exact TR. split; [apply SPLIT; [exact TR|exact OE|rewrite NE; lia]|].
    split; [rewrite NE, NE0; reflexivity|]. left. auto.
  - destruct (Nat.ltb 0 truncate) eqn:T0.
    + cbv zeta. set (t := Nat.min truncate (n_ x)). set (e0 := mkw (o_ x + t) _ _ _ _ _ _). set (b := mkw (o_ x) t _ _ _ _ _).
      destruct (FIN e0 (b :: rev ws) ltac:(unfold e0; cbn [n_]; lia)) as (e & -> & OE & NE & CE). exists [b], e, (skipn (t + n_ e) (text_of line x)), (o_ e0).
      split; [rewrite !rev_app_distr; reflexivity|]. split; [symmetry; exact OE|]. split; [apply SPLIT; [unfold t; lia|exact OE|rewrite NE; unfold e0; cbn [n_]; lia]|].
      split; [rewrite NE; unfold e0, t; cbn [n_]; lia|]. right. split; [reflexivity|]. split; [lia|]. split; [rewrite CE; reflexivity|]. exists b. split; [reflexivity|].
      split; [unfold text_of, b; cbn [o_ n_]; rewrite firstn_firstn; f_equal; unfold t; lia|]. split; reflexivity.
    + assert (truncate = 0) by lia. subst truncate. cbv zeta. destruct (FIN x (rev ws) ltac:(lia)) as (e & -> & OE & NE & CE).
      exists [], e, (skipn (0 + n_ e) (text_of line x)), (o_ x). split; [rewrite rev_app_distr; reflexivity|]. split; [symmetry; exact OE|]. cbn [Nat.min].
      split; [apply (SPLIT e 0); [lia|lia|rewrite NE; lia]|]. split; [rewrite NE; f_equal; lia|]. left. auto.
Qed.
Print Assumptions broken_word.

(** ** Examples *)
Definition shown_states (line : bytes) (r : option (list line_state)) : option (list (nat * nat * nat * list (bytes * bool * bool))) :=
  match r with
  | Some sts => Some (map (fun st => (char_offset st, range_offset st, range_length st, map (fun w => (text_of line w, command_word w, builtin w)) (l_words st))) sts)
  | None => None
  end.
Definition collected (line : bytes) (cursor : nat) (stopc : bool) : option (list line_state) :=
  match collect no_macros alias_ls no_alias true true line cursor stopc with Some (cs, ws, _) => set_states line cs ws | None => None end.
Example states_ex : let line := lit " >x echo a&  ""dir"" b & " in
  ~ In ")"%char line /\ shown_states line (collected line (length line) true) =
  Some [(2, 0, 10, [(lit "x", true, false); (lit "echo", false, true); (lit "a", false, false)]);
        (12, 12, 9, [(lit "dir", true, false); (lit "b", false, false)]); (23, 23, 0, [([], true, false)])].
Proof. split; [|vm_compute; reflexivity]. intros H. cbn in H. repeat (destruct H as [H|H]; [discriminate|]). exact H. Qed.
Example hinter_ex : rev (split_for_hinter 5 (rev [mkw 0 3 true false false false true; mkw 4 3 false false false true false; mkw 9 1 false false false false false])) =
  [mkw 0 3 true false false false true; mkw 4 1 false false false true false].
Proof. reflexivity. Qed.
Example broken_ex : let line := lit "ls a=bcd" in
  break_end_word 2 1 false (rev [mkw 0 2 true true false false false; mkw 3 5 false false false false false]) =
    Some (rev [mkw 0 2 true true false false false; mkw 3 2 false false false false false; mkw 5 1 false false false false false], 5) /\
  text_of line (mkw 5 1 false false false false false) = lit "b".
Proof. split; reflexivity. Qed.

(** ** Refuted: there is a command for every state; behind a closing parenthesis there is none, and the loop that looks for it runs past
    the last command (only an assert of debug builds stops it). *)
Theorem states_parenthesis_refuted :
  ~ forall lookup alias deprecated enhanced dots line cursor stopc cs ws k, cursor <= length line ->
      collect lookup alias deprecated enhanced dots line cursor stopc = Some (cs, ws, k) -> set_states line cs ws <> None.
Proof.
  intros H. specialize (H no_macros alias_ls no_alias true true (lit "()") 2 true).
  destruct (collect no_macros alias_ls no_alias true true (lit "()") 2 true) as [[[cs ws] k]|] eqn:E; [|vm_compute in E; discriminate].
  apply (H cs ws k); [cbn; lia|reflexivity|]. vm_compute in E. injection E as <- <- <-. vm_compute. reflexivity.
Qed.
Print Assumptions states_parenthesis_refuted.
