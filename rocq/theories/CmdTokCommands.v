(** All commands of a line (CmdTokModel.commands) against CmdTokSpec. *)
From Verif Require Import Base DoskeyModel DoskeySpec DoskeyProofs DoskeyName CmdTokModel CmdTokSpec CmdTokProofs CmdTokRem CmdTokLoop.

Definition ascii_names (lookup : bytes -> option bytes) : Prop :=
  forall w t, lookup w = Some t -> Forall (fun c => (N_of_ascii c < 128)%N) w.

Section Commands.
Variable lookup : bytes -> option bytes.
Variable enhanced : bool.

(** ** Macro names *)

Lemma alias_word_split l : exists r, l = alias_word l ++ r /\ (forall c, In c (alias_word l) -> c <> SPC /\ c <> TAB) /\
  (r = [] \/ exists r', r = SPC :: r' \/ r = TAB :: r').
Proof.
  induction l as [|c l IH]; cbn [alias_word].
  - exists []. split; [reflexivity|]. split; [intros c []|auto].
  - destruct (ceq c SPC || ceq c TAB) eqn:E.
    + exists (c :: l). split; [reflexivity|]. split; [intros x []|]. right. exists l.
      apply orb_true_iff in E as [E|E]; apply ceq_true in E; subst; auto.
    + destruct IH as (r & H1 & H2 & H3). exists r. split; [cbn [app]; rewrite <- H1; reflexivity|]. split; [|exact H3].
      apply orb_false_iff in E as [E1 E2]. apply ceq_false in E1, E2. intros x [<-|H]; [auto|apply H2; exact H].
Qed.
Lemma alias_word_exact w r : (forall c, In c w -> c <> SPC /\ c <> TAB) -> (r = [] \/ exists r', r = SPC :: r' \/ r = TAB :: r') ->
  alias_word (w ++ r) = w.
Proof.
  intros H R. induction w as [|c w IH]; cbn [app].
  - destruct R as [->|(r' & [->| ->])]; reflexivity.
  - cbn [alias_word]. destruct (H c (or_introl eq_refl)) as [A B]. apply ceq_false in A, B. rewrite A, B. cbn [orb].
    rewrite IH; [reflexivity|]. intros x X. apply H. right. exact X.
Qed.
Lemma macro_word l w : macro_first lookup l w -> w = alias_word l.
Proof. intros (r & -> & _ & H & R & _). symmetry. apply alias_word_exact; auto. Qed.
Lemma alias_macro l : is_alias_word lookup l = true -> macro_first lookup l (alias_word l).
Proof.
  unfold is_alias_word. destruct (alias_word_split l) as (r & E & H & R). intros A.
  exists r. split; [exact E|]. destruct (alias_word l) as [|c w]; [discriminate|]. split; [discriminate|]. split; [exact H|].
  split; [exact R|]. destruct (lookup (c :: w)); [discriminate|discriminate A].
Qed.
Lemma macro_alias l w : macro_first lookup l w -> is_alias_word lookup l = true.
Proof.
  intros M. pose proof (macro_word _ _ M) as E. destruct M as (r & _ & N & _ & _ & L). unfold is_alias_word. rewrite <- E.
  destruct w; [congruence|]. destruct (lookup (a :: w)); [reflexivity|congruence].
Qed.

Lemma iter_char_split n : forall done l, exists k r, l = k ++ r /\ iter_char n (done, l) = (rev k ++ done, r) /\
  (0 < n -> l <> [] -> k <> []).
Proof.
  induction n as [|n IH]; intros done l; cbn [iter_char].
  - exists [], l. split; [reflexivity|]. split; [reflexivity|lia].
  - destruct l as [|c l].
    + cbn [next_char]. destruct (IH done []) as (k & r & E & -> & _). exists k, r. split; [exact E|]. split; [reflexivity|congruence].
    + destruct (next_char_split done c l) as (k & r & -> & _ & _ & ->).
      destruct (IH (rev (c :: k) ++ done) r) as (k2 & r2 & -> & -> & _).
      exists ((c :: k) ++ k2), r2. split; [rewrite app_comm_cons, app_assoc; reflexivity|]. split; [|discriminate].
      rewrite rev_app_distr, <- app_assoc. reflexivity.
Qed.
Lemma iter_char_ascii w : forall done r, Forall (fun c => (N_of_ascii c < 128)%N) w ->
  iter_char (length w) (done, w ++ r) = (rev w ++ done, r).
Proof.
  induction w as [|c w IH]; intros done r F; [reflexivity|]. cbn [length iter_char app].
  assert (E : next_char (done, c :: w ++ r) = (c :: done, w ++ r)).
  { unfold next_char. pose proof (Forall_inv F) as A. cbn beta in A. apply N.ltb_lt in A. rewrite A. reflexivity. }
  rewrite E, IH by exact (Forall_inv_tail F). cbn [rev]. rewrite <- app_assoc. reflexivity.
Qed.

(** ** The scan *)

Lemma scan_ok done l : exists t rest, l = t ++ rest /\ command_scan lookup (done, l) = Some (rev t ++ done, rest) /\
  (rest = [] \/ exists c r, rest = c :: r /\ (c = AMP \/ c = BAR)) /\
  (l <> [] -> t <> []) /\
  (ascii_names lookup -> command_text lookup t rest).
Proof.
  unfold command_scan. cbn [snd]. unfold alias_len. destruct (is_alias_word lookup l) eqn:A.
  - pose proof (alias_macro l A) as M. destruct M as (r0 & E0 & NE & H & R & L).
    assert (NZ : Nat.eqb (length (alias_word l)) 0 = false) by (destruct (alias_word l); [congruence|reflexivity]).
    rewrite NZ. destruct (iter_char_split (length (alias_word l)) done l) as (k & r & E & IT & NK).
    rewrite IT. cbn [snd].
    destruct (cmd_loop_ok true (rev k ++ done) (S (length r)) [] _ r (Nat.lt_succ_diag_r _) inv_macro) as (v & rest & -> & LO & EA).
    cbn [rev app] in LO. rewrite LO. exists (k ++ v), rest. split; [rewrite <- app_assoc; exact E|].
    split; [rewrite rev_app_distr, <- app_assoc; reflexivity|].
    destruct EA as [O EA]. cbn [app] in O, EA. split.
    { destruct EA as [->|(c & r' & -> & AB & _)]; [auto|]. right. exists c, r'. auto. }
    split.
    { intros NL. assert (LK : k <> []); [|destruct k; [congruence|discriminate]]. apply NK; [|exact NL].
      destruct (alias_word l); [congruence|cbn [length]; lia]. }
    intros AN. destruct (lookup (alias_word l)) as [tx|] eqn:LK; [|congruence].
    pose proof (iter_char_ascii (alias_word l) done r0 (AN _ _ LK)) as IT'. rewrite <- E0, IT in IT'.
    injection IT' as IK IR. apply app_inv_tail in IK. apply (f_equal (@rev _)) in IK. rewrite !rev_involutive in IK. subst k r0.
    exists (alias_word l), v. split; [reflexivity|]. split.
    { left. rewrite <- app_assoc, <- E0. exists (v ++ rest). rewrite LK. split; [exact E0|]. auto. }
    split; [destruct (alias_word l); [congruence|exact O]|].
    destruct EA as [->|(c & r' & -> & AB & PL & NU & _)]; [auto|]. right. exists c, r'. auto.
  - cbn [Nat.eqb].
    destruct (cmd_loop_ok false done (S (length l)) [] _ l (Nat.lt_succ_diag_r _) inv_start) as (v & rest & -> & LO & EA).
    cbn [rev app] in LO. rewrite LO. exists v, rest. split; [reflexivity|]. split; [reflexivity|].
    destruct EA as [O EA]. cbn [app] in O, EA. split.
    { destruct EA as [->|(c & r' & -> & AB & _)]; [auto|]. right. exists c, r'. auto. }
    split.
    { intros NL. destruct EA as [->|(c & r' & -> & AB & PL & _ & NV)]; [rewrite app_nil_r in NL; exact NL|auto]. }
    intros _. exists [], v. split; [reflexivity|]. split.
    { right. split; [reflexivity|]. intros w' M. apply macro_alias in M. congruence. }
    split; [exact O|].
    destruct EA as [->|(c & r' & -> & AB & PL & NU & _)]; [auto|]. right. exists c, r'. auto.
Qed.

(** ** What is before it *)

Lemma opening_chars p : opening p -> Forall (fun c => In c (lit " @(")) p.
Proof.
  intros [->|(q & F & [->|[->| ->]])]; [constructor| | |]; apply Forall_app; (split; [exact F|]); repeat (apply Forall_cons; [cbn; tauto|]); apply Forall_nil.
Qed.

Lemma skip_parens_ok first l : exists p r, l = p ++ r /\ skip_parens lookup enhanced first l = (r, count "(" p) /\
  (opened l p \/ (p = [] /\ exists w, macro_first lookup l ("("%char :: w))) /\ Forall (fun c => In c (lit " @(")) p.
Proof.
  assert (L : exists p r, l = p ++ r /\ skip_loop l l 0 = (r, count "(" p) /\ opened l p).
  { destruct (skip_loop_opened l l 0) as (p & O & F & S). destruct O as (O1 & (r & E) & O2).
    exists p, r. split; [exact E|]. split; [|split; [exact O1|split; [exists r; exact E|exact O2]]].
    rewrite (surjective_pairing (skip_loop l l 0)), F, S. cbn [plus]. f_equal.
    destruct p as [|x p]; [exact E|]. rewrite E at 1. apply skipn_app_exact. reflexivity. }
  unfold skip_parens. destruct l as [|c l].
  - destruct L as (p & r & E & -> & O). exists p, r. split; [exact E|]. split; [reflexivity|]. split; [auto|]. apply opening_chars, O.
  - destruct ((first || enhanced) && ceq c "(" && is_alias_word lookup (c :: l)) eqn:A.
    + apply andb_true_iff in A as [A1 A2]. apply andb_true_iff in A1 as [_ A1]. apply ceq_true in A1. subst c.
      exists [], ("("%char :: l). split; [reflexivity|]. split; [reflexivity|]. split; [|constructor]. right.
      split; [reflexivity|]. apply alias_macro in A2. exists (alias_word l). exact A2.
    + destruct L as (p & r & E & -> & O). exists p, r. split; [exact E|]. split; [reflexivity|]. split; [auto|]. apply opening_chars, O.
Qed.

Definition is_nil {A} (l : list A) : bool := match l with [] => true | _ => false end.

Lemma start_ok done l : (done <> [] -> exists c r, l = c :: r /\ (c = AMP \/ c = BAR)) ->
  exists sep pre r parens, l = sep ++ pre ++ r /\
    command_start lookup enhanced (done, l) = ((rev (sep ++ pre) ++ done, r), parens) /\ parens = count "(" pre /\
    separator (is_nil done) sep (pre ++ r) /\ lead lookup (is_nil done) (pre ++ r) pre /\
    Forall (fun c => In c (lit " @()&|")) (sep ++ pre).
Proof.
  intros H.
  assert (S : exists sep l1, l = sep ++ l1 /\ separator (is_nil done) sep l1 /\ Forall (fun c => In c (lit " @()&|")) sep /\
     @eq zip (if match done with [] => true | _ => false end then (done, l) else skip_separator (done, l)) (rev sep ++ done, l1)).
  { destruct done as [|d done].
    - exists [], l. split; [reflexivity|]. split; [reflexivity|]. split; [constructor|reflexivity].
    - destruct H as (c & r & -> & AB); [discriminate|]. cbn [is_nil]. unfold skip_separator. cbn [snd].
      assert (E : ceq c "&" || ceq c "|" = true) by (destruct AB as [->| ->]; reflexivity). rewrite E.
      assert (IC : In c (lit " @()&|")) by (destruct AB as [->| ->]; cbn; tauto).
      destruct r as [|c2 r].
      + exists [c], []. split; [reflexivity|]. split; [|split; [constructor; [exact IC|constructor]|reflexivity]].
        destruct AB as [->| ->]; [right; right; left|right; right; right]; (split; [reflexivity|discriminate]).
      + destruct (ceq c c2) eqn:C2.
        * apply ceq_true in C2. subst c2. exists [c; c], r. split; [reflexivity|]. split; [|split; [constructor; [exact IC|constructor; [exact IC|constructor]]|reflexivity]].
          destruct AB as [->| ->]; [left|right; left]; reflexivity.
        * apply ceq_false in C2. exists [c], (c2 :: r). split; [reflexivity|]. split; [|split; [constructor; [exact IC|constructor]|reflexivity]].
          destruct AB as [->| ->]; [right; right; left|right; right; right]; (split; [reflexivity|congruence]). }
  destruct S as (sep & l1 & -> & SEP & FS & E1).
  unfold command_start. cbn [fst snd]. cbv zeta. rewrite E1. cbn [snd].
  destruct (skip_parens_ok (match done with [] => true | _ => false end) l1) as (p & r & -> & E2 & OP & FP).
  rewrite E2. change (match done with [] => true | _ => false end) with (is_nil done).
  assert (E3 : advance_to (rev sep ++ done, p ++ r) r = (rev (sep ++ p) ++ done, r)).
  { unfold advance_to. cbn [fst snd]. cbv zeta. rewrite app_length. replace (length p + length r - length r) with (length p) by lia.
    rewrite (firstn_app_exact p r (length p)) by reflexivity. rewrite rev_app_distr, app_assoc. reflexivity. }
  rewrite E3. cbn [snd].
  assert (FP' : Forall (fun c => In c (lit " @()&|")) p).
  { eapply Forall_impl; [|exact FP]. intros c C. cbn in C |- *. tauto. }
  destruct (negb (is_nil done) && Nat.eqb (count "(" p) 0 && match r with c :: _ => ceq c SPC | [] => false end) eqn:SP.
  - apply andb_true_iff in SP as [SP S3]. apply andb_true_iff in SP as [S1 S2]. apply Nat.eqb_eq in S2.
    destruct r as [|c r]; [discriminate|]. apply ceq_true in S3. subst c.
    assert (p = []) as ->.
    { destruct OP as [(O & _)|[-> _]]; [|reflexivity]. destruct O as [->|(q & _ & O)]; [reflexivity|]. exfalso.
      destruct O as [->|[->| ->]]; rewrite count_app in S2; cbn in S2; lia. }
    exists sep, [SPC], r, (count "(" []). split; [reflexivity|]. cbn [app]. rewrite app_nil_r. cbn [next_byte].
    split; [rewrite rev_app_distr; reflexivity|]. split; [reflexivity|]. split; [exact SEP|].
    split.
    + cbn [app] in OP. destruct OP as [O|[_ (w & M)]]; [|destruct M as (r0 & M & _); discriminate].
      right. left. split; [reflexivity|]. split; [exact O|]. destruct (is_nil done); [discriminate|reflexivity].
    + apply Forall_app. split; [exact FS|]. apply Forall_cons; [cbn; tauto|apply Forall_nil].
  - exists sep, p, r, (count "(" p). split; [reflexivity|]. split; [reflexivity|]. split; [reflexivity|]. split; [exact SEP|].
    split; [|apply Forall_app; auto].
    destruct OP as [O|[-> M]]; [|right; right; auto]. left. split; [exact O|].
    destruct p as [|x p]; [|left; discriminate]. right. destruct (is_nil done); [left; reflexivity|right].
    cbn [app negb andb] in *. intros r' ->. rewrite ceq_refl in SP. discriminate.
Qed.

(** ** One command *)

Lemma next_ok done l : l <> [] -> (done <> [] -> exists c r, l = c :: r /\ (c = AMP \/ c = BAR)) ->
  exists sep pre text close rest, l = sep ++ pre ++ text ++ close ++ rest /\
    command_next lookup enhanced (done, l) =
      Some (length done + length sep + length pre, length text, (rev (sep ++ pre ++ text ++ close) ++ done, rest)) /\
    separator (is_nil done) sep (pre ++ text ++ close ++ rest) /\ lead lookup (is_nil done) (pre ++ text ++ close ++ rest) pre /\
    closed (count "(" pre) (text ++ close) text close /\
    (ascii_names lookup -> command_text lookup (text ++ close) rest) /\
    (rest = [] \/ exists c r, rest = c :: r /\ (c = AMP \/ c = BAR)) /\
    Forall (fun c => In c (lit " @()&|")) (sep ++ pre) /\ Forall (fun c => In c (lit " @()&|")) close /\
    length rest < length l.
Proof.
  intros NL H. destruct (start_ok done l H) as (sep & pre & r & parens & -> & ST & -> & SEP & LEAD & F1).
  unfold command_next. rewrite ST.
  destruct (scan_ok (rev (sep ++ pre) ++ done) r) as (t & rest & -> & SC & RE & NE & CT). rewrite SC. cbn [fst snd]. cbv zeta.
  assert (LN : length (rev t ++ rev (sep ++ pre) ++ done) - length (rev (sep ++ pre) ++ done) = length t).
  { rewrite (app_length (rev t)), rev_length. lia. }
  rewrite LN, (firstn_app_exact t rest (length t)) by reflexivity.
  set (n := trim_trailing_parens t (count "(" pre)).
  pose proof (trim_closed t (count "(" pre)) as CL. fold n in CL.
  assert (TS : firstn n t ++ skipn n t = t) by apply firstn_skipn.
  exists sep, pre, (firstn n t), (skipn n t), rest.
  assert (TE : firstn n t ++ skipn n t ++ rest = t ++ rest) by (rewrite app_assoc, TS; reflexivity).
  assert (LE : n <= length t).
  { destruct CL as (E & (_ & _) & _). unfold n.
    destruct (trim_closed t (count "(" pre)) as (E' & _). 
    pose proof (trim_exact t _ _ _ (trim_closed t (count "(" pre))) as X. rewrite firstn_length in X. lia. }
  split; [rewrite TE; reflexivity|]. split.
  { f_equal. f_equal; [f_equal|f_equal].
    - rewrite app_length, rev_length, app_length. lia.
    - rewrite firstn_length. lia.
    - rewrite TS. rewrite (app_assoc sep), (rev_app_distr (sep ++ pre)), <- app_assoc. reflexivity. }
  rewrite TE. split; [exact SEP|]. split; [exact LEAD|]. rewrite TS. split; [exact CL|]. split; [exact CT|]. split; [exact RE|].
  split; [exact F1|]. split.
  { destruct CL as (_ & (F & _) & _). eapply Forall_impl; [|exact F]. intros c C. cbn in C |- *. tauto. }
  assert (X : sep ++ pre ++ t <> []).
  { intros X. destruct sep; [|discriminate]. destruct pre; [|discriminate]. cbn [app] in *. subst t. apply NE; [exact NL|reflexivity]. }
  rewrite !app_length. apply (f_equal (@length _)) in TS.
  assert (0 < length (sep ++ pre ++ t)) by (destruct (sep ++ pre ++ t); [congruence|cbn [length]; lia]).
  rewrite !app_length in *. lia.
Qed.

(** ** All commands *)

Lemma spans_gap (gap : byte -> Prop) o g l xs : Forall gap g -> spans gap (o + length g) l xs -> spans gap o (g ++ l) xs.
Proof.
  intros F S. inversion S; subst.
  - apply sp_end. apply Forall_app; auto.
  - rewrite app_assoc. replace (o + length g + length g0) with (o + length (g ++ g0)) by (rewrite app_length; lia).
    apply sp_cons; [apply Forall_app; auto|]. rewrite app_length, Nat.add_assoc. assumption.
Qed.

Lemma commands_ok : forall fuel done l, length l < fuel -> (done <> [] -> l = [] \/ exists c r, l = c :: r /\ (c = AMP \/ c = BAR)) ->
  exists xs, commands_from lookup enhanced fuel (done, l) = Some xs /\
    spans (fun c => In c (lit " @()&|")) (length done) l xs /\
    (ascii_names lookup -> split_into lookup (is_nil done) (length done) l xs).
Proof.
  induction fuel as [|fuel IH]; intros done l F H; [lia|]. cbn [commands_from snd]. destruct l as [|c0 l0].
  - exists []. split; [reflexivity|]. split; [constructor; constructor|intros _; constructor].
  - destruct (next_ok done (c0 :: l0)) as (sep & pre & text & close & rest & E & N & SEP & LEAD & CL & CT & RE & F1 & F2 & LT).
    { discriminate. }
    { intros ND. destruct (H ND) as [X|X]; [discriminate|exact X]. }
    rewrite N. set (done' := rev (sep ++ pre ++ text ++ close) ++ done).
    destruct (IH done' rest) as (xs & -> & SP & SI).
    { cbn [length] in *. lia. }
    { intros _. exact RE. }
    assert (LD : length done' = length done + length sep + length pre + length text + length close).
    { unfold done'. rewrite app_length, rev_length, !app_length. lia. }
    exists ((length done + length sep + length pre, length text) :: xs). split; [reflexivity|]. rewrite E.
    split.
    + rewrite app_assoc.
      replace (length done + length sep + length pre) with (length done + length (sep ++ pre)) by (rewrite app_length; lia).
      apply sp_cons; [exact F1|]. apply spans_gap; [exact F2|].
      replace (length done + length (sep ++ pre) + length text + length close) with (length done') by (rewrite LD, app_length; lia).
      exact SP.
    + intros AN. apply s_command; auto. rewrite <- LD.
      assert (ND : is_nil done' = false).
      { assert (X : 0 < length (rev (sep ++ pre ++ text ++ close))).
        { rewrite rev_length. apply (f_equal (@length _)) in E. rewrite !app_length in *. lia. }
        unfold done'. destruct (rev (sep ++ pre ++ text ++ close)); [cbn [length] in X; lia|reflexivity]. }
      rewrite <- ND. apply SI; exact AN.
Qed.
End Commands.
