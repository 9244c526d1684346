(** C38: doskey macro expansion. *)
From Verif Require Import Base DoskeyModel DoskeySpec DoskeyProofs DoskeyName DoskeyResolve.

(** With doskey.enhanced, for ordinary macro names: every line has exactly one reading, and resolve yields it (or
    nothing if no command calls a macro). *)
Theorem resolve_reads_the_line lookup : ordinary lookup -> forall line,
  exists out b, line_becomes lookup line out b /\
    resolve lookup true line = Some (if b then out else []) /\
    (forall out' b', line_becomes lookup line out' b' -> out' = out /\ b' = b).
Proof.
  intros ord line. destruct (line_exist lookup ord (length line) line (le_n _)) as (out & b & L).
  pose proof (loop_line lookup ord line out b L (S (length line)) [] false (le_n _)) as R.
  exists out, b. split; auto. split.
  - unfold resolve. rewrite R. cbn [app]. rewrite orb_false_r. reflexivity.
  - intros out' b' L'. pose proof (loop_line lookup ord line out' b' L' (S (length line)) [] false (le_n _)) as R'.
    rewrite R in R'. cbn [app] in R'. rewrite !orb_false_r in R'. injection R' as -> ->. auto.
Qed.
Print Assumptions resolve_reads_the_line.

(** Without it only the line's first command can be a macro, and it takes the whole line; quotes mean nothing. *)
Theorem resolve_plain_line lookup : no_paren_names lookup -> forall line,
  (forall out text, whole lookup false line [] out text -> resolve lookup false line = Some out) /\
  ((forall pre name close after text, ~ calls lookup line pre name close after text) ->
   resolve lookup false line = Some []) /\
  ((exists out text, whole lookup false line [] out text) \/
   forall pre name close after text, ~ calls lookup line pre name close after text).
Proof.
  intros NP line. split; [|split].
  - intros out text (pre & name & close & after & ws & e & C & AR & EX & ->). rewrite !app_nil_r in *.
    destruct (proj1 (calls_iff lookup line NP pre text after)) as [O G]; [eauto|].
    assert (R : resolve_impl lookup false line = Some (pre ++ e, [])).
    { unfold resolve_impl, get_alias. rewrite G. cbn [f_skipped f_text f_parens f_in andb].
      rewrite skipn_all. f_equal. f_equal.
      destruct O as (_ & (r & ER) & _). rewrite ER at 1. rewrite firstn_app_exact by auto. f_equal.
      rewrite (args_collect false ws _ AR 10). rewrite (expansion_expand _ _ _ _ EX).
      destruct (collect_args false 10 after) as [|a l] eqn:CA.
      - apply collect_nil in CA. rewrite (args_unique _ _ _ _ AR CA). reflexivity.
      - destruct ws as [|w ws]; [pose proof (proj2 (collect_nil false _) AR); congruence|].
        rewrite firstn_all.
        rewrite <- (app_nil_l after) at 1. rewrite skip_spaces_blank; [reflexivity|constructor|].
        destruct C as (gap & _ & _ & _ & _ & _ & _ & _ & A & _). exact A. }
    unfold resolve. destruct C as (gap & E & _ & _ & NN & _).
    assert (LN : line <> []).
    { intro H. rewrite E in H. apply (f_equal (@length byte)) in H. rewrite !app_length in H.
      destruct name; [congruence|cbn in H; lia]. }
    destruct line as [|x line]; [congruence|]. cbn [length resolve_loop]. rewrite R.
    cbn [delims skipn firstn app]. rewrite app_nil_r. reflexivity.
  - intro NC. unfold resolve. destruct line as [|x line]; [reflexivity|]. cbn [length resolve_loop].
    assert (G : get_alias1 lookup false (x :: line) = None).
    { destruct (get_alias1 lookup false (x :: line)) as [f|] eqn:G; auto. exfalso.
      destruct (get_inv lookup false _ f NP G) as (pre & name & close & r & E & O & C & _ & _ & _ & _ & L & F).
      rewrite F in G.
      destruct (proj2 (calls_iff lookup _ NP pre (f_text f) (skip_spaces r)) (conj O G)) as (nm & cl & K). eapply NC; eauto. }
    unfold resolve_impl, get_alias. rewrite G. reflexivity.
  - destruct (get_alias1 lookup false line) as [f|] eqn:G.
    + left. destruct (get_inv lookup false _ f NP G) as (pre & name & close & r & E & O & C & _ & _ & _ & _ & L & F).
      rewrite F in G.
      destruct (proj2 (calls_iff lookup _ NP pre (f_text f) (skip_spaces r)) (conj O G)) as (nm & cl & K).
      destruct (args_exist false (skip_spaces r ++ [])) as [ws A].
      exists (pre ++ expand (firstn 10 ws) (match ws with [] => [] | _ => skip_spaces r ++ [] end) (f_text f)), (f_text f).
      exists pre, nm, cl, (skip_spaces r), ws, (expand (firstn 10 ws) (match ws with [] => [] | _ => skip_spaces r ++ [] end) (f_text f)).
      split; auto. split; auto. split; auto. apply expand_expansion.
    + right. intros pre name close after text C.
      destruct (proj1 (calls_iff lookup line NP pre text after)) as [O G']; [eauto|]. congruence.
Qed.
Print Assumptions resolve_plain_line.

(** Whatever the macros, with and without doskey.enhanced, expansion ends. *)
Lemma name_end_bound relaxed l : name_end relaxed l <= length l.
Proof.
  destruct (name_end_cut relaxed l) as (tok & r & -> & -> & _). rewrite app_length. lia.
Qed.
Lemma skip_spaces_length l : length (skip_spaces l) <= length l.
Proof. induction l as [|c l IH]; cbn [skip_spaces]; auto. destruct (ceq c SPC); cbn [length]; lia. Qed.
Lemma skip_loop_length l : forall orig n, length l <= length orig -> length (fst (skip_loop l orig n)) <= length orig.
Proof.
  induction l as [|c|c d r IH1 IH2] using bytes_ind2; intros orig n H.
  - cbn. auto.
  - cbn [skip_loop]. destruct (_ && _); cbn [fst]; auto. destruct (ceq c "("); cbn [fst length]; auto. lia.
  - cbn [skip_loop]. destruct (_ && _); cbn [fst]; auto. destruct (ceq c "(").
    + destruct (ceq d SPC || ceq d "@").
      * specialize (IH1 r (S n) (le_n _)). cbn [length] in H. lia.
      * specialize (IH2 (d :: r) (S n) (le_n _)). cbn [skip_loop length] in *. lia.
    + specialize (IH2 orig n). cbn [skip_loop length] in *. apply IH2. lia.
Qed.
Lemma skip_leading_length lookup l : length (fst (skip_leading_parens lookup l)) <= length l.
Proof.
  unfold skip_leading_parens. destruct l as [|c l]; [cbn; auto|].
  destruct (ceq c "(" && is_alias_word lookup (c :: l)); [cbn [fst]; auto|]. apply skip_loop_length; auto.
Qed.
Lemma get_alias1_shorter lookup relaxed l f : get_alias1 lookup relaxed l = Some f -> length (f_in f) < length l.
Proof.
  unfold get_alias1. pose proof (skip_leading_length lookup l) as SL.
  destruct (skip_leading_parens lookup l) as [start parens]. cbn [fst] in SL.
  destruct start as [|c s]; [discriminate|]. remember (c :: s) as start. destruct (ceq c SPC); [discriminate|].
  cbv zeta. set (n := name_end relaxed start). set (k := trim_trailing_parens (firstn n start) parens).
  destruct (firstn k start) as [|y nm] eqn:K; [discriminate|]. destruct (lookup (y :: nm)); [|discriminate].
  intro H; injection H as <-. cbn [f_in].
  pose proof (skip_spaces_length (skipn n start)) as B. rewrite skipn_length in B.
  assert (k <= length (firstn n start)).
  { unfold k. rewrite (trim_exact _ _ _ _ (trim_closed (firstn n start) parens)). rewrite !firstn_length. lia. }
  assert (0 < k) by (destruct k; [discriminate|lia]).
  pose proof (name_end_bound relaxed start) as NB. fold n in NB. rewrite firstn_length in *. lia.
Qed.

Theorem resolve_ends lookup enhanced line : resolve lookup enhanced line <> None.
Proof.
  unfold resolve.
  assert (forall k text out r0, length text < k -> resolve_loop lookup enhanced k text out r0 <> None) as H.
  { induction k as [|k IH]; intros text out r0 LT; [lia|]. destruct text as [|c text]; [discriminate|].
    cbn [resolve_loop].
    assert (forall o rest res, length rest <= length (c :: text) ->
       (length rest = length (c :: text) -> exists x t, rest = x :: t /\ is_sep x = true) ->
       resolve_loop lookup enhanced k
         (skipn (spaced (skipn (delims rest) rest)) (skipn (delims rest) rest)) o res <> None) as GO.
    { intros o rest res L1 L2. apply IH. rewrite !skipn_length.
      destruct (Nat.eq_dec (length rest) (length (c :: text))) as [EQ|NE]; [|lia].
      destruct (L2 EQ) as (x & t & -> & X). cbn [delims]. rewrite X. cbn [length] in *. lia. }
    unfold resolve_impl. destruct (get_alias lookup enhanced (c :: text)) as [f|] eqn:G.
    - assert (length (f_in f) < length (c :: text)).
      { unfold get_alias in G. destruct (get_alias1 lookup false (c :: text)) eqn:G1.
        - injection G as <-. eapply get_alias1_shorter; eauto.
        - destruct enhanced; [|discriminate]. eapply get_alias1_shorter; eauto. }
      cbv iota zeta. apply GO; rewrite skipn_length; lia.
    - destruct enhanced; [|discriminate]. cbv iota zeta.
      destruct (fce_cut (c :: text) false) as (c' & tail & E & -> & N & D). rewrite E.
      rewrite skipn_app_exact by auto. apply GO.
      + rewrite E, app_length. lia.
      + rewrite E, app_length. intro L. destruct c' as [|y c']; [|cbn in L; lia].
        destruct D as [->|(x & t & -> & S)]; [discriminate|]. exists x, t. split; auto. eapply separates_sep; eauto. }
  specialize (H (S (length line)) line [] false (le_n _)).
  destruct (resolve_loop lookup enhanced (S (length line)) line [] false) as [[o b]|]; [discriminate|congruence].
Qed.
Print Assumptions resolve_ends.

(** The result is handed out line by line. *)
Theorem alias_lines_spec l : lines_of l (alias_lines (S (length l)) l).
Proof.
  assert (TL : forall l, ~ In LF (fst (take_line l)) /\
    (l = fst (take_line l) ++ LF :: snd (take_line l) \/ (l = fst (take_line l) /\ snd (take_line l) = []))).
  { clear. induction l as [|c l IH]; [cbn; auto|]. cbn [take_line]. destruct (ceq c LF) eqn:E.
    - apply ceq_true in E; subst. cbn [fst snd app]. auto.
    - apply ceq_false in E. destruct (take_line l) as [a b]. cbn [fst snd] in *. destruct IH as [I1 I2].
      split; [intros [H|H]; auto|]. destruct I2 as [I2|[I2 I3]].
      + left. cbn [app]. f_equal. exact I2.
      + right. split; auto. f_equal. auto. }
  assert (forall n l, length l < n -> lines_of l (alias_lines n l)) as H; [|apply H; lia].
  clear l. induction n as [|n IH]; intros l L; [lia|]. cbn [alias_lines]. destruct l as [|c l].
  - cbn [alias_next]. split; [constructor|left; reflexivity].
  - cbn [alias_next]. destruct (TL (c :: l)) as [T1 T2]. destruct (take_line (c :: l)) as [a b] eqn:E. cbn [fst snd] in *.
    assert (LB : length b < n).
    { destruct T2 as [T2|[_ ->]]; [|cbn [length] in *; lia].
      apply (f_equal (@length byte)) in T2. rewrite app_length in T2. cbn [length] in *. lia. }
    destruct (IH b LB) as [F D]. split; [constructor; auto|].
    destruct T2 as [T2|[T2 ->]].
    + destruct D as [D|(ls' & x & D1 & D2 & D3)].
      * left. cbn [map concat]. rewrite <- D, <- app_assoc. exact T2.
      * right. exists (a :: ls'), x. split; [rewrite D1; auto|]. split; auto.
        cbn [map concat]. rewrite <- !app_assoc. rewrite <- D3. exact T2.
    + right. exists [], a. destruct n; [lia|]. cbn [alias_lines alias_next]. split; auto. split; [|exact T2].
      intros ->. discriminate.
Qed.
Print Assumptions alias_lines_spec.

(** ** Examples *)

Definition macros (n : bytes) : option bytes :=
  if eqb_bytes n (lit "foo") then Some (lit "echo [$1] [$2] $$ $q $g out")
  else if eqb_bytes n (lit "all") then Some (lit "run $*$Tnext")
  else if eqb_bytes n (lit "ps") then Some (lit "powershell " ++ [QUOTE] ++ lit "$*" ++ [QUOTE])
  else None.

Lemma macros_ordinary : ordinary macros.
Proof.
  intros name text H. unfold macros in H.
  destruct (eqb_bytes name (lit "foo")) eqn:E1;
    [|destruct (eqb_bytes name (lit "all")) eqn:E2; [|destruct (eqb_bytes name (lit "ps")) eqn:E3; [|discriminate]]];
  match goal with K : eqb_bytes name _ = true |- _ => apply eqb_bytes_eq in K; subst name end;
  (split; [intros c Hc; apply inb_false; cbn [lit list_ascii_of_string In] in Hc;
           repeat (destruct Hc as [<-|Hc]; [reflexivity|]); contradiction|discriminate]).
Qed.

(** A line with two macro calls, one of them within parentheses, an ordinary command, and quotes. *)
Example resolve_example :
  resolve macros true (lit "foo a " ++ [QUOTE] ++ lit "b | c" ++ [QUOTE] ++ lit " d|  foo x & ( all y z ) && dir") =
  Some (lit "echo [a] [" ++ [QUOTE] ++ lit "b | c" ++ [QUOTE] ++ lit "] $ $q > out|  foo x & ( run y z ) " ++ LF ::
        lit "next&& dir").
Proof. vm_compute. reflexivity. Qed.
Example resolve_example_quoted :
  resolve macros true (lit "ps|sort & foo") = Some (lit "powershell " ++ [QUOTE] ++ lit "|sort & foo" ++ [QUOTE]).
Proof. vm_compute. reflexivity. Qed.
Example resolve_example_line : exists out b,
  line_becomes macros (lit "dir & foo a b") out b /\ b = true /\ out = lit "dir & echo [a] [b] $ $q > out".
Proof.
  destruct (resolve_reads_the_line macros macros_ordinary (lit "dir & foo a b")) as (out & b & L & R & _).
  exists out, b. split; auto. vm_compute in R. destruct b; [|discriminate]. injection R as R. auto.
Qed.
Example resolve_example_plain : resolve macros false (lit "foo a|b c") = Some (lit "echo [a|b] [c] $ $q > out").
Proof. vm_compute. reflexivity. Qed.
Example alias_lines_example : alias_lines 100 (lit "a" ++ LF :: LF :: lit "b" ++ [LF]) = [lit "a"; []; lit "b"].
Proof. vm_compute. reflexivity. Qed.

(** ** What does not hold *)

(** The text around a macro call is not always kept: parentheses closed after its arguments are dropped with them,
    although those opened before it are kept. *)
Definition parens_kept : Prop :=
  forall lookup line out, ordinary lookup -> resolve lookup true line = Some out -> out <> [] ->
    (forall name text, lookup name = Some text -> ~ In "("%char text /\ ~ In ")"%char text) ->
    count "(" line = count ")" line -> count "(" out = count ")" out.
Theorem parens_kept_refuted : ~ parens_kept.
Proof.
  intro H.
  assert (E : resolve macros true (lit "(foo a)&dir") = Some (lit "(echo [a] [] $ $q > out&dir")) by (vm_compute; reflexivity).
  assert (count "(" (lit "(echo [a] [] $ $q > out&dir") = count ")" (lit "(echo [a] [] $ $q > out&dir")) as K.
  { apply (H macros _ _ macros_ordinary E); [discriminate| |reflexivity].
    intros name text L. unfold macros in L.
    destruct (eqb_bytes name (lit "foo")); [|destruct (eqb_bytes name (lit "all")); [|destruct (eqb_bytes name (lit "ps")); [|discriminate]]];
    injection L as <-; (split; apply inb_false; vm_compute; reflexivity). }
  vm_compute in K. discriminate.
Qed.
Print Assumptions parens_kept_refuted.

(** A redirection joined to the macro's name hides the macro. *)
Theorem redirect_hides_macro_refuted :
  ~ (forall lookup line name text r, ordinary lookup -> lookup name = Some text -> line = name ++ ">"%char :: r ->
       resolve lookup true line <> Some []).
Proof.
  intro H. apply (H macros (lit "foo>x") (lit "foo") _ (lit "x") macros_ordinary eq_refl eq_refl).
  vm_compute. reflexivity.
Qed.
Print Assumptions redirect_hides_macro_refuted.
