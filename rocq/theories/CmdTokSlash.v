(** C39: the word that is the command ends at a slash, also behind a redirection; other words do not. *)
From Verif Require Import Base DoskeyModel CmdTokModel CmdTokSpec CmdTokWords CmdTokProperties.

Definition letter (c : byte) : Prop := In c (lit "abcdefghijklmnopqrstuvwxyz").
Definition name (m : bytes) : Prop := m <> [] /\ Forall letter m.
Lemma letter_facts c : letter c ->
  input_type c = iTxt /\ ceq c "^" = false /\ ceq c "/" = false /\ ceq c QUOTE = false /\ has command_delimiters c = false /\
  has name_delims c = false /\ has command_delims c = false /\ has word_delims c = false /\ (N_of_ascii c <? 128)%N = true.
Proof.
  intro L. cbn in L. decompose [or] L; try contradiction; subst c; vm_compute; auto 10.
Qed.
Section Loop.
Variable beyond : byte.
Lemma cs_letter s c ns b : has command_delimiters c = false -> fst (cs_test b s c ns) = false.
Proof.
  intro H. unfold cs_test. rewrite H, andb_false_r. destruct (cs_failed s); [reflexivity|]. destruct (_ && _); [reflexivity|]. destruct (_ || _); [reflexivity|].
  destruct (is_cmd_command _) as [[]|]; [destruct b; reflexivity|destruct b; reflexivity|reflexivity].
Qed.
Lemma no_letter_delims c cw ra w : letter c -> has (get_delims cw ra w) c = false.
Proof.
  intro L. destruct (letter_facts c L) as (_ & _ & _ & _ & _ & D1 & D2 & D3 & _). unfold get_delims. destruct (ra || cw && negb w); [exact D1|]. destruct cw; assumption.
Qed.
(** One letter *)
Lemma letter_tail cw c done r ws ra start e st fc fs : letter c ->
  exists cs, word_tail beyond cw (done, c :: r) ws ra start e st sTxt fc fs =
    Some (WGo (c :: done, r) (mkwl (mkws cs (w_command_word ws) (w_next_redir_arg ws)) ra start (S (length done)) false fs false sTxt)) /\ (cs_failed (w_cmd ws) = true -> cs_failed cs = true).
Proof.
  intros L. destruct (letter_facts c L) as (I & C1 & C2 & C3 & C4 & _ & _ & _ & A). unfold word_tail, peek. cbn [snd]. rewrite C1. cbn [andb]. rewrite C2. cbn [andb].
  cbn [st_eq]. destruct (cs_test false (w_cmd ws) c sTxt) as [hit cs] eqn:E. assert (H : hit = false) by (change hit with (fst (hit, cs)); rewrite <- E; apply cs_letter; exact C4). subst hit.
  cbn [orb andb]. rewrite (no_letter_delims c cw ra _ L). rewrite C1. unfold next_char. rewrite A. unfold pos. cbn [fst length]. rewrite C3.
  exists cs. split; [reflexivity|]. intro FA. unfold cs_test in E. rewrite FA in E. injection E as <-. exact FA.
Qed.
Lemma letter_turn cw c done r ws ra start e fc st : letter c -> st = sTxt \/ st = sSpc ->
  exists cs, word_turn beyond cw (done, c :: r) (mkwl ws ra start e fc false false st) =
    Some (WGo (c :: done, r) (mkwl (mkws cs (w_command_word ws) (w_next_redir_arg ws)) ra start (S (length done)) false false false sTxt)) /\ (cs_failed (w_cmd ws) = true -> cs_failed cs = true).
Proof.
  intros L ST. destruct (letter_facts c L) as (I & C1 & C2 & _). unfold word_turn. cbn [wl_in_quote snd wl_state wl_first_char wl_first_slash]. unfold peek. cbn [snd].
  rewrite I. assert (T : transition st iTxt = Some sTxt) by (destruct ST; subst st; reflexivity). rewrite T. cbn [no_break st_eq ends_redir].
  cbn [wl_ws wl_redir_arg wl_start wl_end]. rewrite C2. destruct fc; apply letter_tail; exact L.
Qed.
Lemma letters_loop cw : forall m fuel done q ws ra start e fc st, Forall letter m -> m <> [] -> length m <= fuel -> st = sTxt \/ st = sSpc ->
  exists cs, word_loop beyond cw fuel (done, m ++ q) (mkwl ws ra start e fc false false st) =
    word_loop beyond cw (fuel - length m) (rev m ++ done, q)
      (mkwl (mkws cs (w_command_word ws) (w_next_redir_arg ws)) ra start (length m + length done) false false false sTxt) /\ (cs_failed (w_cmd ws) = true -> cs_failed cs = true).
Proof.
  induction m as [|c m IH]; intros fuel done q ws ra start e fc st F NE L ST; [congruence|]. destruct fuel as [|fuel]; [cbn [length] in L; lia|].
  cbn [app word_loop]. destruct (letter_turn cw c done (m ++ q) ws ra start e fc st (Forall_inv F) ST) as (cs & T & FA). rewrite T. clear T.
  destruct m as [|d m].
  - cbn [app length rev]. exists cs. rewrite Nat.sub_succ, Nat.sub_0_r. split; [reflexivity|exact FA].
  - destruct (IH fuel (c :: done) q (mkws cs (w_command_word ws) (w_next_redir_arg ws)) ra start (S (length done)) false sTxt (Forall_inv_tail F)) as (cs' & E & FB); [discriminate|cbn [length] in *; lia|left; reflexivity|].
    rewrite E. exists cs'. split; [|auto]. cbn [w_command_word w_next_redir_arg]. cbn [length rev]. rewrite <- !app_assoc. cbn [app]. f_equal. f_equal. cbn [length]. lia.
Qed.
Lemma skip_letter delims done c r : letter c -> has delims c = false -> skip_word_seps (S (length (c :: r))) delims (done, c :: r) = Some (done, c :: r).
Proof.
  intros L H. destruct (letter_facts c L) as (_ & C1 & _). cbn [skip_word_seps snd]. rewrite C1, H. reflexivity.
Qed.
(** A command word of letters with a slash behind it *)
Lemma next_slash done m q s : Forall letter m -> m <> [] -> w_command_word s = true -> w_next_redir_arg s = false ->
  exists s', word_next beyond (done, m ++ "/"%char :: q) s = Some (length done, length m, false, (rev m ++ done, "/"%char :: q), s').
Proof.
  intros F NE CW NR. unfold word_next, start_new_word. cbn [snd]. rewrite CW, NR. destruct m as [|c m]; [congruence|].
  cbn [app]. rewrite (skip_letter _ done c _ (Forall_inv F)) by (apply no_letter_delims; exact (Forall_inv F)). cbn [snd].
  change (c :: m ++ "/"%char :: q) with ((c :: m) ++ "/"%char :: q).
  destruct (letters_loop true (c :: m) (S (S (length ((c :: m) ++ "/"%char :: q)))) done ("/"%char :: q) (mkws (cs_next_word (w_cmd s)) true false) false (pos (done, (c :: m) ++ "/"%char :: q)) (pos (done, (c :: m) ++ "/"%char :: q)) true sSpc F NE) as (cs & E & _).
  { rewrite app_length. cbn [length]. lia. } { right. reflexivity. }
  rewrite E. clear E. rewrite app_length. set (n := length (c :: m)). replace (S (S (n + length ("/"%char :: q))) - n) with (S (S (S (length q)))) by (cbn [length]; lia).
  cbn [word_loop]. unfold word_turn, peek. cbn [wl_in_quote snd wl_state wl_first_char wl_first_slash wl_ws wl_redir_arg wl_start wl_end].
  change (transition sTxt (input_type "/")) with (Some sTxt). cbn [no_break st_eq ends_redir]. unfold word_tail, peek. cbn [snd]. change (ceq "/" "^") with false. cbn [andb].
  cbn [st_eq le_spc le_dig andb]. cbn [w_cmd w_command_word w_next_redir_arg].
  destruct (cs_test false cs "/" sTxt) as [[] cs']; cbn [ceq negb andb]; change (ceq "/" "/") with true; cbn [andb];
    eexists; unfold pos; cbn [fst wl_start wl_end wl_redir_arg]; do 5 f_equal; rewrite app_length, rev_length; fold n; lia.
Qed.
(** A redirection of letters with a blank behind it *)
Lemma next_redirection done n q s : Forall letter n -> n <> [] -> w_next_redir_arg s = false ->
  exists cs', word_next beyond (done, ">"%char :: n ++ SPC :: q) s =
    Some (S (length done), length n, true, (SPC :: rev n ++ ">"%char :: done, q), mkws cs' (w_command_word s) false).
Proof.
  intros F NE NR. unfold word_next, start_new_word at 1. cbn [snd]. rewrite NR.
  assert (SK : skip_word_seps (S (length (">"%char :: n ++ SPC :: q))) (get_delims (w_command_word s) false false) (done, ">"%char :: n ++ SPC :: q) = Some (done, ">"%char :: n ++ SPC :: q)).
  { cbn [skip_word_seps snd]. change (ceq ">" "^") with false. unfold get_delims. destruct (w_command_word s); reflexivity. }
  rewrite SK. clear SK. cbn [snd]. destruct n as [|c n]; [congruence|].
  cbn [length app]. set (FU := S (length (n ++ SPC :: q))).
  assert (T1 : word_turn beyond (w_command_word s) (done, ">"%char :: c :: n ++ SPC :: q) (mkwl (mkws (cs_next_word (w_cmd s)) (w_command_word s) false) false (length done) (length done) true false false sSpc) =
    Some (WGo (">"%char :: done, c :: n ++ SPC :: q) (mkwl (mkws (cs_next_word (w_cmd s)) (w_command_word s) false) false (length done) (length done) false false false sOut))) by reflexivity.
  pose proof (Forall_inv F) as LC.
  assert (T2 : exists cs, word_turn beyond (w_command_word s) (">"%char :: done, c :: n ++ SPC :: q) (mkwl (mkws (cs_next_word (w_cmd s)) (w_command_word s) false) false (length done) (length done) false false false sOut) =
    Some (WGo (c :: ">"%char :: done, n ++ SPC :: q) (mkwl (mkws cs (w_command_word s) false) true (S (length done)) (S (S (length done))) false false false sTxt))).
  { unfold word_turn. cbn [wl_in_quote wl_state wl_first_char wl_first_slash wl_ws wl_redir_arg wl_start wl_end]. unfold peek at 1 2. cbn [snd].
    destruct (letter_facts c LC) as (I & _). rewrite I. change (transition sOut iTxt) with (Some sARG). cbn [no_break st_eq ends_redir]. rewrite Nat.ltb_irrefl.
    unfold start_new_word. cbn [w_next_redir_arg w_cmd w_command_word snd]. rewrite (skip_letter _ _ c _ LC) by (apply no_letter_delims; exact LC).
    cbn [snd]. rewrite I. change (transition sSpc iTxt) with (Some sTxt). cbn [no_break st_eq].
    destruct (letter_tail (w_command_word s) c (">"%char :: done) (n ++ SPC :: q) (mkws (cs_next_word (cs_next_word (w_cmd s))) (w_command_word s) false) true (pos (">"%char :: done, c :: n ++ SPC :: q)) (pos (">"%char :: done, c :: n ++ SPC :: q)) sSpc false false LC) as (cs & E & _).
    exists cs. cbn [w_command_word w_next_redir_arg] in *. exact E. }
  destruct T2 as (cs & T2).
  change (word_loop beyond (w_command_word s) (S (S (S FU)))) with (fun z x => match word_turn beyond (w_command_word s) z x with None => None | Some (WStop z' x') => Some (z', x') | Some (WGo z' x') =>
     match word_turn beyond (w_command_word s) z' x' with None => None | Some (WStop z' x') => Some (z', x') | Some (WGo z' x') => word_loop beyond (w_command_word s) (S FU) z' x' end end). cbv beta.
  change (pos (done, ">"%char :: c :: n ++ SPC :: q)) with (length done). rewrite T1, T2. clear T1 T2.
  assert (TAIL : forall fuel done' cs, 0 < fuel -> word_loop beyond (w_command_word s) fuel (done', SPC :: q)
       (mkwl (mkws cs (w_command_word s) false) true (S (length done)) (length done') false false false sTxt) =
     Some ((SPC :: done', q), mkwl (mkws cs (w_command_word s) false) true (S (length done)) (length done') false false false sTxt)).
  { intros fuel done' cs0 FP. destruct fuel as [|fuel]; [lia|]. cbn [word_loop]. unfold word_turn, peek. cbn [wl_in_quote snd wl_state wl_first_char wl_first_slash wl_ws wl_redir_arg wl_start wl_end].
    change (transition sTxt (input_type SPC)) with (Some sSpc). cbn [no_break st_eq ends_redir]. unfold word_tail, peek. cbn [snd]. reflexivity. }
  destruct n as [|d n].
  - cbn [app rev]. rewrite (TAIL _ (c :: ">"%char :: done) cs) by (cbn [length]; lia). cbn [length]. eexists. cbn [wl_start wl_end wl_redir_arg wl_ws w_cmd w_command_word w_next_redir_arg]. do 5 f_equal. lia.
  - destruct (letters_loop (w_command_word s) (d :: n) (S FU) (c :: ">"%char :: done) (SPC :: q) (mkws cs (w_command_word s) false) true (S (length done)) (S (S (length done))) false sTxt (Forall_inv_tail F)) as (cs' & E & _);
      [discriminate|unfold FU; rewrite app_length; cbn [length]; lia|left; reflexivity|].
    cbn [app length] in E |- *. rewrite E. clear E. cbn [w_command_word w_next_redir_arg].
    replace (S (length n) + S (S (length done))) with (length ((rev n ++ [d]) ++ c :: ">"%char :: done)) by (rewrite !app_length, rev_length; cbn [length]; lia).
    cbn [rev]. rewrite TAIL by (unfold FU; cbn [app length]; rewrite app_length; cbn [length]; lia).
    eexists. cbn [wl_start wl_end wl_redir_arg wl_ws w_cmd w_command_word w_next_redir_arg]. rewrite <- !app_assoc. cbn [app].
    do 5 f_equal. rewrite !app_length, rev_length. cbn [length]. lia.
Qed.
End Loop.

Lemma words_first beyond fuel z s w z' s' xs : snd z <> [] -> word_next beyond z s = Some (w, z', s') -> words_from (S fuel) beyond z s = Some xs ->
  exists ys, words_from fuel beyond z' s' = Some ys /\ xs = w :: ys.
Proof.
  intros NE E. cbn [words_from]. destruct (snd z); [congruence|]. rewrite E. destruct w as [[o n] ra]. destruct (words_from fuel beyond z' s') as [ys|]; [|discriminate].
  intro H. injection H as <-. eauto.
Qed.
(** The command ends at a slash ... *)
Theorem slash_ends_command : forall beyond m q, name m ->
  exists xs, words beyond true (m ++ "/"%char :: q) = Some ((0, length m, false) :: xs).
Proof.
  intros beyond m q [NE F]. destruct (words_cover beyond true (m ++ "/"%char :: q)) as (xs & E & _). rewrite E.
  destruct (next_slash beyond [] m q (word_start true) F NE eq_refl eq_refl) as (s' & N). unfold words in E.
  assert (NZ : snd (([], m ++ "/"%char :: q) : zip) <> []) by (destruct m; discriminate). destruct (words_first _ _ _ _ _ _ _ _ NZ N E) as (ys & _ & ->). exists ys. reflexivity.
Qed.
(** ... also when a redirection precedes it ... *)
Theorem slash_ends_redirected_command : forall beyond n m q, name n -> name m ->
  exists xs, words beyond true (">"%char :: n ++ SPC :: m ++ "/"%char :: q) = Some ((1, length n, true) :: (length n + 2, length m, false) :: xs).
Proof.
  intros beyond n m q [NN FN] [NM FM]. destruct (words_cover beyond true (">"%char :: n ++ SPC :: m ++ "/"%char :: q)) as (xs & E & _). rewrite E. unfold words in E.
  destruct (next_redirection beyond [] n (m ++ "/"%char :: q) (word_start true) FN NN eq_refl) as (cs & N).
  assert (NZ : snd (([], ">"%char :: n ++ SPC :: m ++ "/"%char :: q) : zip) <> []) by discriminate. destruct (words_first _ _ _ _ _ _ _ _ NZ N E) as (ys & E2 & ->).
  destruct (next_slash beyond (SPC :: rev n ++ [">"%char]) m q (mkws cs true false) FM NM eq_refl eq_refl) as (s' & N2). cbn [length] in E2.
  assert (NY : snd ((SPC :: rev n ++ [">"%char], m ++ "/"%char :: q) : zip) <> []) by (destruct m; discriminate). destruct (words_first _ _ _ _ _ _ _ _ NY N2 E2) as (zs & _ & ->).
  exists zs. do 4 f_equal. cbn [length]. rewrite app_length, rev_length. cbn [length]. f_equal. f_equal. lia.
Qed.
(** ... and no other word does. *)
Theorem slash_inside_argument : forall beyond m k, name m -> name k ->
  words beyond false (m ++ "/"%char :: k) = Some [(0, S (length m + length k), false)].
Proof.
  intros beyond m k [NM FM] [NK FK]. unfold words. set (FU := length (m ++ "/"%char :: k)).
  assert (N : exists s' h, word_next beyond ([], m ++ "/"%char :: k) (word_start false) = Some (0, S (length m + length k), false, (h, []), s')).
  { unfold word_next, start_new_word. cbn [snd word_start w_command_word w_next_redir_arg w_cmd]. destruct m as [|c m]; [congruence|].
    cbn [app]. rewrite (skip_letter _ [] c _ (Forall_inv FM)) by (apply no_letter_delims; exact (Forall_inv FM)). cbn [snd].
    change (c :: m ++ "/"%char :: k) with ((c :: m) ++ "/"%char :: k). set (M := c :: m) in *. clearbody M. unfold pos. cbn [fst length].
    destruct (letters_loop beyond false M (S (S (length (M ++ "/"%char :: k)))) [] ("/"%char :: k) (mkws (cs_next_word (cs_clear false)) false false) false 0 0 true sSpc FM NM) as (cs & E & FA);
      [rewrite app_length; lia|right; reflexivity|]. rewrite E. clear E. specialize (FA eq_refl). rewrite app_length. cbn [length].
    replace (S (S (length M + S (length k))) - length M) with (S (length k + 2)) by lia. cbn [word_loop]. unfold word_turn at 1, peek at 1.
    cbn [wl_in_quote snd wl_state wl_first_char wl_first_slash wl_ws wl_redir_arg wl_start wl_end]. change (transition sTxt (input_type "/")) with (Some sTxt). cbn [no_break st_eq ends_redir].
    unfold word_tail at 1, peek. cbn [snd w_cmd w_command_word w_next_redir_arg]. change (ceq "/" "^") with false. cbn [andb st_eq]. unfold cs_test at 1. rewrite FA. cbn [andb negb orb].
    rewrite !andb_false_r. cbn [andb]. change (has (get_delims false false true) "/"%char) with false. cbv iota. unfold next_char. change (N_of_ascii "/" <? 128)%N with true. cbv iota. change (ceq "/" QUOTE) with false.
    destruct (letters_loop beyond false k (length k + 2) ("/"%char :: rev M ++ []) [] (mkws cs false false) false 0 (pos ("/"%char :: rev M ++ [], k)) false sTxt FK NK) as (cs2 & E & _); [lia|left; reflexivity|].
    rewrite (app_nil_r k) in E. cbn [length app] in E |- *. change (ceq "/" "^") with false. cbv iota. rewrite E. clear E. replace (length k + 2 - length k) with 2 by lia. cbn [word_loop]. unfold word_turn, peek. cbn [wl_in_quote snd wl_state wl_first_char wl_first_slash wl_ws wl_redir_arg wl_start wl_end].
    change (transition sTxt (input_type NUL)) with (Some sSpc). cbn [no_break st_eq ends_redir]. unfold word_tail, peek. cbn [snd le_spc le_dig andb]. unfold pos. cbn [fst wl_start wl_end wl_redir_arg].
    eexists. eexists. do 5 f_equal. cbn [length]. rewrite !app_length, rev_length. cbn [length]. rewrite app_length, rev_length. cbn [length]. lia. }
  destruct N as (s' & h & N). cbn [words_from]. destruct (m ++ "/"%char :: k) as [|x r] eqn:EM; [destruct m; discriminate|]. cbn [snd]. rewrite N.
  subst FU. cbn [length words_from snd]. reflexivity.
Qed.
Example ex_slash : words NUL true (lit ">out cd/usr x") = Some [(1, 3, true); (5, 2, false); (7, 4, false); (12, 1, false)].
Proof. vm_compute. reflexivity. Qed.
Example ex_names : name (lit "out") /\ name (lit "cd").
Proof. split; (split; [discriminate|]); repeat (apply Forall_cons; [vm_compute; auto 30|]); apply Forall_nil. Qed.

Print Assumptions slash_ends_command.
Print Assumptions slash_ends_redirected_command.
Print Assumptions slash_inside_argument.
