(** The words of a command (CmdTokModel.words) against CmdTokSpec. *)
From Verif Require Import Base DoskeyModel DoskeySpec DoskeyProofs DoskeyName CmdTokModel CmdTokSpec CmdTokProofs CmdTokRem CmdTokLoop.

Definition ends_sign (h : bytes) : Prop := exists a s, h = a ++ [s] /\ sign s.

(** ** Characters *)

Definition betweenb (c : byte) : bool := inb c (lit "@ =;,('`+)[]{}<>&^0123456789" ++ [TAB; LF; NUL]).
Lemma between_iff c : between c <-> betweenb c = true.
Proof. symmetry. apply inb_iff. Qed.

Lemma delim_between cw ra iw c : has (get_delims cw ra iw) c = true -> between c \/ c = "/"%char.
Proof.
  rewrite between_iff. unfold get_delims.
  assert (N : has name_delims c = true -> betweenb c = true \/ c = "/"%char).
  { assert (T : negb (has name_delims c) || betweenb c = true) by (clear; revert c; apply by_table; vm_compute; reflexivity).
    intros H. rewrite H in T. auto. }
  assert (K : has command_delims c = true -> betweenb c = true \/ c = "/"%char).
  { assert (T : negb (has command_delims c) || betweenb c || ceq c "/" = true) by (clear; revert c; apply by_table; vm_compute; reflexivity).
    intros H. rewrite H in T. cbn [negb orb] in T. apply orb_true_iff in T as [T|T]; [auto|]. apply ceq_true in T. auto. }
  assert (W : has word_delims c = true -> betweenb c = true \/ c = "/"%char).
  { assert (T : negb (has word_delims c) || betweenb c = true) by (clear; revert c; apply by_table; vm_compute; reflexivity).
    intros H. rewrite H in T. auto. }
  destruct (ra || cw && negb iw); [exact N|]. destruct cw; [exact K|exact W].
Qed.
Lemma delim_between_start cw ra c : has (get_delims cw ra false) c = true -> between c.
Proof.
  intros H. assert (S : c <> "/"%char).
  { intros ->. unfold get_delims in H. cbn [negb] in H. rewrite andb_true_r in H. destruct ra, cw; discriminate. }
  apply delim_between in H as [H|H]; [exact H|contradiction].
Qed.
Lemma delim_name ra c : has (get_delims ra true false) c = true -> In c (lit " @=;,(^" ++ [TAB]).
Proof.
  intros H. assert (E : has name_delims c = true) by exact H. apply inb_iff.
  assert (T : negb (has name_delims c) || inb c (lit " @=;,(^" ++ [TAB]) = true) by (clear; revert c; apply by_table; vm_compute; reflexivity).
  rewrite E in T. exact T.
Qed.
Lemma delim_ascii cw ra iw c : has (get_delims cw ra iw) c = true -> (N_of_ascii c < 128)%N /\ c <> "^"%char.
Proof.
  assert (G : forall s, forallb (fun x => (N_of_ascii x <? 128)%N && negb (ceq x "^")) s = true ->
              has s c = true -> (N_of_ascii c < 128)%N /\ c <> "^"%char).
  { intros s F H. rewrite forallb_forall in F. apply inb_iff in H. apply F in H. apply andb_true_iff in H as [A B].
    apply negb_true_iff, ceq_false in B. split; [lia|exact B]. }
  unfold get_delims. destruct (ra || cw && negb iw); [apply G; reflexivity|]. destruct cw; apply G; reflexivity.
Qed.
Lemma white_between c : white c -> between c.
Proof. unfold white, between. cbn. tauto. Qed.
Lemma sign_between c : sign c -> between c.
Proof. intros [->| ->]; apply between_iff; reflexivity. Qed.
Lemma digit_between c : a_digit c -> between c.
Proof.
  intros D. apply a_digit_iff in D. apply between_iff.
  assert (T : negb (is_digit c) || betweenb c = true) by (clear; revert c; apply by_table; vm_compute; reflexivity).
  rewrite D in T. exact T.
Qed.
Lemma amp_between : between AMP.
Proof. apply between_iff. reflexivity. Qed.
Lemma caret_between : between "^"%char.
Proof. apply between_iff. reflexivity. Qed.
Lemma hit_follows c : has command_delimiters c = true -> between c \/ In c (lit "/\:.|").
Proof.
  intros H. rewrite between_iff. rewrite <- inb_iff.
  assert (T : negb (has command_delimiters c) || betweenb c || inb c (lit "/\:.|") = true) by (clear; revert c; apply by_table; vm_compute; reflexivity).
  rewrite H in T. cbn [negb orb] in T. apply orb_true_iff in T. exact T.
Qed.

(** ** Skipping separators *)

Lemma skip_seps_ok cw ra : forall fuel done l, length l < fuel ->
  exists k r, l = k ++ r /\ skip_word_seps fuel (get_delims cw ra false) (done, l) = Some (rev k ++ done, r) /\
    Forall between k /\ (ra = true -> Forall (fun c => In c (lit " @=;,(^" ++ [TAB])) k).
Proof.
  induction fuel as [|fuel IH]; intros done l F; [lia|]. cbn [skip_word_seps snd].
  assert (STAY : exists k r, l = k ++ r /\ Some (done, l) = Some (rev k ++ done, r) /\
    Forall between k /\ (ra = true -> Forall (fun c => In c (lit " @=;,(^" ++ [TAB])) k)).
  { exists [], l. split; [reflexivity|]. split; [reflexivity|]. split; [constructor|constructor]. }
  destruct l as [|c l]; [exact STAY|]. destruct (ceq c "^") eqn:C.
  - destruct l as [|d l]; [exact STAY|]. destruct (ceq d SPC) eqn:D; [|exact STAY]. cbn [next_byte].
    apply ceq_true in C, D. subst c d. destruct (IH (SPC :: "^"%char :: done) l) as (k & r & -> & -> & B & N); [cbn [length] in F; lia|].
    exists ("^"%char :: SPC :: k), r. split; [reflexivity|]. split; [cbn [rev]; rewrite <- !app_assoc; reflexivity|].
    split; [apply Forall_cons; [apply caret_between|apply Forall_cons; [apply white_between; left; reflexivity|exact B]]|].
    intros RA. apply Forall_cons; [cbn; tauto|apply Forall_cons; [cbn; tauto|auto]].
  - destruct (has (get_delims cw ra false) c) eqn:H; [|exact STAY]. cbn [next_byte].
    destruct (IH (c :: done) l) as (k & r & -> & -> & B & N); [cbn [length] in F; lia|].
    exists (c :: k), r. split; [reflexivity|]. split; [cbn [rev]; rewrite <- !app_assoc; reflexivity|].
    split; [apply Forall_cons; [eapply delim_between_start; exact H|exact B]|].
    intros RA. apply Forall_cons; [|auto]. subst ra. eapply delim_name. exact H.
Qed.

(** ** The invariant of the loop *)

(** The bytes behind the word's end, by state. *)
Definition pending (st : tstate) (h : bytes) : Prop :=
  match st with
  | sTxt | sSpc => h = []
  | sDig => exists d, h = [d] /\ a_digit d
  | sReAm | sAmDi => Forall (fun c => sign c \/ a_digit c \/ c = AMP) h /\ h <> []
  | _ => Forall (fun c => sign c \/ a_digit c \/ c = AMP) h /\ ends_sign h
  end.

Lemma pending_between st h : proper st -> pending st h -> Forall between h.
Proof.
  intros P H. assert (G : Forall (fun c => sign c \/ a_digit c \/ c = AMP) h -> Forall between h).
  { intros F. eapply Forall_impl; [|exact F]. intros c [C|[C| ->]]; [apply sign_between|apply digit_between|apply amp_between]; auto. }
  destruct st; cbn [pending proper] in *; try contradiction; try (apply G; tauto); try (subst h; constructor).
  destruct H as (d & -> & D). constructor; [apply digit_between; exact D|constructor].
Qed.
Lemma ends_nonempty h : ends_sign h -> h <> [].
Proof. intros (a & s & -> & _). destruct a; discriminate. Qed.
Lemma pending_nonempty st h : proper st -> pending st h -> le_dig st = false -> h <> [].
Proof.
  intros P H L. destruct st; cbn [pending proper le_dig] in *; try contradiction; try discriminate;
    solve [exact (proj2 H)|exact (ends_nonempty _ (proj2 H))].
Qed.
Lemma pending_arg st h i : proper st -> pending st h -> transition st i = Some sARG -> ends_sign h.
Proof.
  intros P H T. destruct st; cbn [proper] in P; try contradiction; destruct i; cbn in T; try discriminate; exact (proj2 H).
Qed.
Lemma ends_snoc h c : sign c -> ends_sign (h ++ [c]).
Proof. intros S. exists h, c. auto. Qed.

Lemma amp_bar_text c : c = AMP \/ c = BAR -> ~ white c /\ ~ sign c.
Proof.
  intros H. split.
  - intros W. apply white_iff in W. destruct H as [-> | ->]; discriminate.
  - destruct H as [-> | ->]; intros [E|E]; discriminate.
Qed.

(** What the next character does to the state. *)
Lemma word_case st h c tr : proper st -> pending st h -> transition st (input_type c) = Some tr -> ends_redir (no_break tr) = false ->
  (no_break tr = sTxt /\ le_dig st = true /\ ~ white c /\ ~ sign c) \/
  (no_break tr = sSpc /\ le_dig st = true /\ white c) \/
  (no_break tr = sDig /\ st = sSpc /\ a_digit c) \/
  (le_dig (no_break tr) = false /\ proper (no_break tr) /\ pending (no_break tr) (h ++ [c]) /\ (sign c \/ c = AMP \/ a_digit c)).
Proof.
  intros P H T E. pose proof (input_facts c) as F.
  assert (D : forall d, sign d -> Forall (fun c => sign c \/ a_digit c \/ c = AMP) h -> Forall (fun c => sign c \/ a_digit c \/ c = AMP) (h ++ [d]) /\ ends_sign (h ++ [d])).
  { intros d S FH. split; [|apply ends_snoc; exact S]. apply Forall_app. split; [exact FH|]. constructor; [auto|constructor]. }
  assert (NE : forall d : byte, h ++ [d] <> []) by (intros d X; destruct h; discriminate).
  destruct st; cbn [proper] in P; try contradiction; destruct (input_type c); cbn in T; injection T as <-;
    cbn [no_break st_eq ends_redir] in E |- *; try discriminate E; cbn [pending] in H;
    first
    [ left; split; [reflexivity|]; split; [reflexivity|];
      first [tauto|apply amp_bar_text; solve [auto]|split; [tauto|apply digit_not_sign; tauto]]
    | right; left; split; [reflexivity|]; split; [reflexivity|exact F]
    | right; right; left; split; [reflexivity|]; split; [reflexivity|tauto]
    | right; right; right; split; [reflexivity|]; split; [exact I|]; split;
      [ cbn [pending]; subst;
        first [ apply D; [first [apply lt_sign|apply gt_sign]|first [tauto|apply Forall_nil|destruct H as (d & -> & DD); constructor; [auto|constructor]]]
              | split; [|apply NE]; apply Forall_app; split; [tauto|]; constructor; [tauto|constructor] ]
      | subst; first [left; apply lt_sign|left; apply gt_sign|right; left; reflexivity|right; right; tauto] ] ].
Qed.

Definition no_white (ra : bool) (t : bytes) : Prop :=
  forall a c b, t = a ++ c :: b -> white c -> place_after a = Quoted \/ (ra = true /\ place_after a = Escaped).

Lemma no_white_nil ra : no_white ra [].
Proof. intros a c b E. destruct a; discriminate. Qed.
Lemma no_white_snoc ra t c : no_white ra t -> (white c -> place_after t = Quoted \/ (ra = true /\ place_after t = Escaped)) ->
  no_white ra (t ++ [c]).
Proof.
  intros N H a x b E. destruct (snoc_cases b) as [->|(b' & y & ->)].
  - apply app_inj_tail in E as [-> ->]. exact H.
  - rewrite app_comm_cons, app_assoc in E. apply app_inj_tail in E as [-> _]. apply (N a x b'). reflexivity.
Qed.
Lemma no_white_app ra k : forall t, no_white ra t -> Forall (fun c => ~ white c) k -> no_white ra (t ++ k).
Proof.
  induction k as [|c k IH]; intros u N F; [rewrite app_nil_r; exact N|].
  replace (u ++ c :: k) with ((u ++ [c]) ++ k) by (rewrite <- app_assoc; reflexivity).
  apply IH; [|exact (Forall_inv_tail F)]. apply no_white_snoc; [exact N|]. intros W. exfalso. exact (Forall_inv F W).
Qed.

(** ** One turn *)

(** The text so far is g ++ t ++ h: what is before the word, the word, and what is pending behind it. *)
Record winv (base g t h : bytes) (l0 : nat) (rest : bytes) (x : word_loop_state) : Prop := mkwinv {
  wi_start : wl_start x = length base + length g;
  wi_end : wl_end x = length base + length g + length t;
  wi_proper : proper (wl_state x);
  wi_pending : pending (wl_state x) h;
  wi_gap : Forall between g;
  wi_sign : wl_redir_arg x = true -> behind_sign g;
  wi_white : no_white (wl_redir_arg x) t;
  wi_place : place_after t = (if wl_in_quote x then Quoted else Plain) \/ (rest = [] /\ h = [] /\ wl_in_quote x = false);
  wi_quote : wl_in_quote x = true -> wl_state x = sTxt;
  wi_first : wl_first_char x = true -> cs_failed (w_cmd (wl_ws x)) = true \/ cs_match (w_cmd (wl_ws x)) = false;
  wi_later : wl_first_char x = true -> le_dig (wl_state x) = true;
  wi_some : wl_first_char x = false -> length rest < l0;
  wi_len : length rest <= l0;
  wi_flag : w_next_redir_arg (wl_ws x) = false;
  wi_cs : cs_first (w_cmd (wl_ws x)) = false }.

Record wdone (base g t h : bytes) (l0 : nat) (rest : bytes) (x : word_loop_state) : Prop := mkwdone {
  wd_start : wl_start x = length base + length g;
  wd_end : wl_end x = length base + length g + length t;
  wd_gap : Forall between g;
  wd_sign : wl_redir_arg x = true -> behind_sign g;
  wd_text : word_text (wl_redir_arg x) t (h ++ rest);
  wd_pending : Forall between h;
  wd_some : length rest < l0 \/ (l0 = 0 /\ rest = []);
  wd_flag : w_next_redir_arg (wl_ws x) = true -> ends_sign h;
  wd_cs : cs_first (w_cmd (wl_ws x)) = false }.

Definition wturned (base u l : bytes) (l0 : nat) (w : wturn) : Prop :=
  match w with
  | WStop z x => exists g t h rest, u ++ l = g ++ t ++ h ++ rest /\ z = (rev (g ++ t ++ h) ++ base, rest) /\ wdone base g t h l0 rest x
  | WGo z x => exists g t h rest, u ++ l = g ++ t ++ h ++ rest /\ z = (rev (g ++ t ++ h) ++ base, rest) /\ winv base g t h l0 rest x /\
                 length rest < length l
  end.

Lemma pos_rev (u base rest : bytes) : pos (rev u ++ base, rest) = length base + length u.
Proof. unfold pos. cbn [fst]. rewrite app_length, rev_length. lia. Qed.

Lemma rev_gap (g t h base : bytes) c : rev (g ++ (t ++ h) ++ [c]) ++ base = c :: rev (g ++ t ++ h) ++ base.
Proof. rewrite (app_assoc g (t ++ h) [c]), rev_app_distr. reflexivity. Qed.

Lemma digit_plain t h st : place_after t = Plain -> pending st h -> le_dig st = true -> proper st ->
  place_after (t ++ h) = Plain.
Proof.
  intros P H L PR. destruct st; cbn [pending le_dig proper] in *; try discriminate; try contradiction; try (subst h; rewrite app_nil_r; exact P).
  destruct H as (d & -> & D). rewrite place_snoc, P. apply a_digit_iff in D. cbn [step].
  destruct (Ascii.eqb d DQ) eqn:E1; [apply Ascii.eqb_eq in E1; subst d; discriminate|].
  destruct (Ascii.eqb d "^") eqn:E2; [apply Ascii.eqb_eq in E2; subst d; discriminate|]. reflexivity.
Qed.
Lemma digit_not_white c : a_digit c -> ~ white c.
Proof.
  intros D W. apply a_digit_iff in D. apply white_iff in W.
  assert (TT : negb (is_white c) || negb (is_digit c) = true) by (clear - c; revert c; apply by_table; vm_compute; reflexivity).
  rewrite D, W in TT. discriminate.
Qed.
Lemma digit_no_white ra t h st : no_white ra t -> pending st h -> le_dig st = true -> proper st -> no_white ra (t ++ h).
Proof.
  intros N H L PR. apply no_white_app; [exact N|].
  destruct st; cbn [pending le_dig proper] in *; try discriminate; try contradiction; try (subst h; constructor).
  destruct H as (d & -> & D). constructor; [|constructor]. apply digit_not_white; exact D.
Qed.

Lemma hit_facts cs c ns cs' : cs_test false cs c ns = (true, cs') -> cs_failed cs = false /\ cs_match cs = true /\ has command_delimiters c = true.
Proof.
  unfold cs_test. destruct (cs_failed cs); [discriminate|]. destruct (_ && _); [discriminate|]. destruct (_ || _); [discriminate|].
  destruct (cs_match cs && has command_delimiters c) eqn:E; [intros _; apply andb_true_iff in E as [A B]; auto|].
  cbv zeta. destruct (is_cmd_command _) as [[|]|]; discriminate.
Qed.

Lemma test_first only cs c ns b cs' : cs_test only cs c ns = (b, cs') -> cs_first cs' = cs_first cs.
Proof.
  unfold cs_test. destruct (cs_failed cs); [intros H; injection H as _ <-; reflexivity|].
  destruct (_ && _); [intros H; injection H as _ <-; reflexivity|]. destruct (_ || _); [intros H; injection H as _ <-; reflexivity|].
  destruct (_ && _); [intros H; injection H as _ <-; reflexivity|]. cbv zeta.
  destruct (is_cmd_command _) as [r|]; [|intros H; injection H as _ <-; reflexivity].
  destruct (_ && _); intros H; injection H as _ <-; reflexivity.
Qed.

Lemma no_slash cw ra iw c : has (get_delims cw ra iw) c = true -> ceq c "/" && iw && cw && negb ra = false -> between c.
Proof.
  intros H N. destruct (delim_between _ _ _ _ H) as [B| ->]; [exact B|]. exfalso.
  rewrite ceq_refl in N. cbn [andb] in N. unfold get_delims in H. destruct ra, cw, iw; cbn in H, N; discriminate.
Qed.

Section Tail.
Variable beyond : byte.
Variable command_word : bool.

Lemma tail_ok base g t h l0 rest ws ra start end0 st tr fc fs :
  start = length base + length g -> end0 = length base + length g + length t -> proper st -> pending st h ->
  Forall between g -> (ra = true -> behind_sign g) -> no_white ra t ->
  (place_after t = Plain \/ (rest = [] /\ h = [])) ->
  (fc = true -> cs_failed (w_cmd ws) = true \/ cs_match (w_cmd ws) = false) ->
  (fc = false -> length rest < l0) -> length rest <= l0 -> (fc = true -> le_dig st = true) ->
  w_next_redir_arg ws = false -> cs_first (w_cmd ws) = false ->
  transition st (input_type (peek (rev (g ++ t ++ h) ++ base, rest))) = Some tr -> ends_redir (no_break tr) = false ->
  exists w, word_tail beyond command_word (rev (g ++ t ++ h) ++ base, rest) ws ra start end0 st (no_break tr) fc fs = Some w /\
    wturned base (g ++ t ++ h) rest l0 w.
Proof.
  intros ES EE PR PE GA SI NW PL CS SO LE LD FL CF TR ER.
  unfold word_tail. cbn [snd]. destruct rest as [|c r].
  - (* the end of the line *)
    eexists. split; [reflexivity|]. cbn [wturned].
    assert (tr = sSpc /\ le_dig st = true) as [-> L].
    { cbn [peek snd] in TR. destruct st; cbn [proper] in PR; try contradiction; cbn in TR; injection TR as <-; cbn in ER; try discriminate; auto. }
    cbn [no_break st_eq le_spc andb]. rewrite L.
    exists g, (t ++ h), [], []. rewrite !app_nil_r. split; [rewrite <- ?app_assoc; reflexivity|].
    split; [reflexivity|]. rewrite pos_rev.
    split; cbn [wl_start wl_end wl_redir_arg wl_ws]; auto.
    + rewrite !app_length. lia.
    + cbn [app]. split; [|auto]. apply (digit_no_white _ _ _ st); auto.
    + destruct l0; [right; auto|left; cbn [length]; lia].
    + congruence.
  - destruct PL as [PL|[PL _]]; [|discriminate]. cbn [peek snd] in TR |- *. cbv zeta.
    set (c2 := match r with d :: _ => d | [] => beyond end).
    set (end1 := if le_spc (no_break tr) && le_dig st then pos (rev (g ++ t ++ h) ++ base, c :: r) else end0).
    assert (LR : length r < l0) by (cbn [length] in *; lia).
    assert (STOP0 : le_spc (no_break tr) = true -> le_dig st = true -> end1 = length base + length g + length (t ++ h)).
    { intros A B. unfold end1. rewrite A, B. cbn [andb]. rewrite pos_rev, !app_length. lia. }
    destruct (ceq c "^" && negb ra && match input_type c2 with iSpc => true | _ => false end) eqn:CSP.
    + (* a ^ before a blank *)
      apply andb_true_iff in CSP as [CSP C2]. apply andb_true_iff in CSP as [CA RA]. apply ceq_true in CA. subst c.
      assert (L : le_dig st = true /\ no_break tr = sTxt).
      { rewrite caret_text in TR. destruct st; cbn [proper] in PR; try contradiction; cbn in TR; injection TR as <-; cbn in ER; try discriminate; auto. }
      destruct L as [L NT].
      assert (TS : transition st iSpc = Some sSpc) by (destruct st; try discriminate L; reflexivity). rewrite TS. cbn [option_map].
      cbn [st_eq]. assert (CC : ceq c2 "/" = false /\ ceq c2 "^" = false).
      { split; apply ceq_false; intros E; rewrite E in C2; discriminate. }
      destruct CC as [CC1 CC2]. rewrite CC1, CC2. cbn [andb orb].
      eexists. split; [reflexivity|]. cbn [wturned]. exists g, (t ++ h), ["^"%char], r.
      split; [rewrite <- ?app_assoc; reflexivity|]. split.
      { unfold next_char. change (N_of_ascii "^" <? 128)%N with true. cbn iota. rewrite rev_gap. reflexivity. }
      split; cbn [wl_start wl_end wl_redir_arg wl_ws w_next_redir_arg]; auto.
      * apply STOP0; [rewrite NT; reflexivity|exact L].
      * split; [apply (digit_no_white _ _ _ st); auto|]. split; [right; apply (digit_plain _ _ st); auto|].
        right. exists "^"%char, r. split; [reflexivity|]. left. apply caret_between.
      * constructor; [apply caret_between|constructor].
      * congruence.
    + pose proof (word_case st h c tr PR PE TR ER) as WC.
      destruct WC as [(NS & L & W1 & W2)|[(NS & L & W1)|[(NS & L & W1)|(L & W1 & W2 & W3)]]].
      * (* text *)
        rewrite NS in *. cbn [st_eq]. specialize (STOP0 eq_refl L).
        assert (PT : place_after (t ++ h) = Plain) by (apply (digit_plain _ _ st); auto).
        assert (NT : no_white ra (t ++ h)) by (apply (digit_no_white _ _ _ st); auto).
        destruct (cs_test false (w_cmd ws) c sTxt) as [hit cs'] eqn:TE.
        assert (CF' : cs_first cs' = false) by (rewrite (test_first _ _ _ _ _ _ TE); exact CF).
        assert (HERE : fc = false -> between c \/ In c (lit "/\:.|") -> forall fs' ws' q s', w_next_redir_arg ws' = false -> cs_first (w_cmd ws') = false ->
          wturned base (g ++ t ++ h) (c :: r) l0 (WStop (rev (g ++ t ++ h) ++ base, c :: r) (mkwl ws' ra start end1 fc fs' q s'))).
        { intros FC HC fs' ws' q s' FW CW. cbn [wturned]. exists g, (t ++ h), [], (c :: r). cbn [app].
          split; [rewrite <- ?app_assoc; reflexivity|]. rewrite app_nil_r. split; [reflexivity|].
          split; cbn [wl_start wl_end wl_redir_arg wl_ws w_next_redir_arg]; auto; try congruence.
          split; [exact NT|]. split; [right; exact PT|]. right. exists c, r. auto. }
        destruct hit.
        { eexists. split; [reflexivity|]. apply hit_facts in TE as (T1 & T2 & T3). apply HERE.
          - destruct fc; [|reflexivity]. destruct (CS eq_refl); congruence.
          - apply hit_follows. exact T3.
          - exact FL.
          - exact CF'. }
        destruct (ceq c "/" && negb fs && negb fc && command_word && negb ra) eqn:SL.
        { eexists. split; [reflexivity|]. apply andb_true_iff in SL as [SL _]. apply andb_true_iff in SL as [SL _].
          apply andb_true_iff in SL as [SL S3]. apply andb_true_iff in SL as [S1 _]. apply ceq_true in S1. apply HERE.
          - destruct fc; [discriminate|reflexivity].
          - subst c. right. cbn. tauto.
          - exact FL.
          - exact CF'. }
        cbn [orb andb]. destruct (has (get_delims command_word ra (negb fs && negb fc)) c) eqn:DE.
        { eexists. split; [reflexivity|]. destruct (delim_ascii _ _ _ _ DE) as [D1 D2]. apply ceq_false in D2. rewrite D2.
          assert (BC : between c).
          { apply (no_slash _ _ _ _ DE). rewrite !andb_assoc. exact SL. }
          cbn [wturned]. exists g, (t ++ h), [c], r. split; [rewrite <- ?app_assoc; reflexivity|]. split.
          { unfold next_char. apply N.ltb_lt in D1. rewrite D1. rewrite rev_gap. reflexivity. }
          split; cbn [wl_start wl_end wl_redir_arg wl_ws w_next_redir_arg]; auto; try congruence.
          - split; [exact NT|]. split; [right; exact PT|]. right. exists c, r. auto. }
        eexists. split; [reflexivity|]. cbn [wturned].
        assert (EAT : exists k r', r = k ++ r' /\ eaten c false k r' /\
          (if ceq c "^" then next_char (next_char (rev (g ++ t ++ h) ++ base, c :: r)) else next_char (rev (g ++ t ++ h) ++ base, c :: r))
            = (rev (c :: k) ++ rev (g ++ t ++ h) ++ base, r')).
        { destruct (eat (rev (g ++ t ++ h) ++ base) c r (fun _ => false)) as (k & r' & H1 & H2 & H3); [discriminate|discriminate|].
          exists k, r'. split; [exact H1|]. split; [exact H2|exact H3]. }
        destruct EAT as (k & r' & -> & EAT & ZE). rewrite ZE. clear ZE. rewrite rev_chunk.
        exists g, (t ++ h ++ c :: k), [], r'. cbn [app].
        split; [rewrite <- ?app_assoc; reflexivity|].
        assert (LG : g ++ (t ++ h ++ c :: k) ++ [] = (g ++ t ++ h) ++ c :: k) by (rewrite app_nil_r, <- !app_assoc; reflexivity).
        rewrite LG. split; [reflexivity|].
        assert (LT : length r' < length (c :: k ++ r')) by (cbn [length]; rewrite app_length; lia).
        split; [|exact LT].
        assert (EK : no_white ra (t ++ h ++ c :: k) /\ (place_after (t ++ h ++ c :: k) = (if ceq c QUOTE then Quoted else Plain) \/ (r' = [] /\ ceq c QUOTE = false))).
        { replace (t ++ h ++ c :: k) with (((t ++ h) ++ [c]) ++ k) by (rewrite <- !app_assoc; reflexivity).
          assert (N1 : no_white ra ((t ++ h) ++ [c])) by (apply no_white_snoc; [exact NT|contradiction]).
          destruct EAT as [C|d k r' C F|k r' C F A NQ|r' QK].
          - rewrite app_nil_r. split; [exact N1|]. right. subst c. auto.
          - subst c. assert (P1 : place_after ((t ++ h) ++ ["^"%char]) = Escaped) by (rewrite place_snoc, PT; reflexivity).
            split.
            + replace (((t ++ h) ++ ["^"%char]) ++ d :: k) with ((((t ++ h) ++ ["^"%char]) ++ [d]) ++ k) by (rewrite <- !app_assoc; reflexivity).
              apply no_white_app; [|apply conts_no_white; exact F]. apply no_white_snoc; [exact N1|].
              intros WD. right. split; [|exact P1]. cbn [app] in c2. subst c2. rewrite ceq_refl in CSP. cbn [andb] in CSP.
              destruct ra; [reflexivity|]. cbn [negb andb] in CSP. exfalso.
              assert (ID : input_type d = iSpc) by (destruct WD as [<-|[<-|[<-|[]]]]; reflexivity). rewrite ID in CSP. discriminate.
            + left. unfold place_after. rewrite fold_step_app. fold (place_after ((t ++ h) ++ ["^"%char])). rewrite P1.
              cbn [fold_left step]. apply conts_place; auto. discriminate.
          - split; [apply no_white_app; [exact N1|apply conts_no_white; exact F]|]. left.
            unfold place_after. rewrite fold_step_app. fold (place_after ((t ++ h) ++ [c])). rewrite place_snoc, PT.
            cbn [step]. apply ceq_false in C. unfold ceq in C. rewrite C. change (Ascii.eqb c DQ) with (ceq c QUOTE).
            destruct (ceq c QUOTE); apply conts_place; auto; discriminate.
          - discriminate. }
        destruct EK as [EK1 EK2].
        split; cbn [wl_start wl_end wl_redir_arg wl_ws wl_state wl_in_quote wl_first_char w_next_redir_arg w_cmd]; auto; try discriminate; try exact I; try reflexivity.
        -- rewrite pos_rev, !app_length. cbn [length]. lia.
        -- destruct EK2 as [EK2|[EK2 EK3]]; [left; exact EK2|right; auto].
        -- intros _. cbn [length] in LE. rewrite app_length in LE. lia.
        -- cbn [length] in LE. rewrite app_length in LE. lia.
      * (* a blank *)
        rewrite NS in *. cbn [st_eq]. specialize (STOP0 eq_refl L).
        assert (CC : ceq c "/" = false /\ ceq c "^" = false /\ (N_of_ascii c <? 128)%N = true).
        { destruct W1 as [<-|[<-|[<-|[]]]]; vm_compute; auto. }
        destruct CC as (CC1 & CC2 & CC3). rewrite CC1, CC2. cbn [andb orb].
        eexists. split; [reflexivity|]. cbn [wturned]. exists g, (t ++ h), [c], r.
        split; [rewrite <- ?app_assoc; reflexivity|]. split.
        { unfold next_char. rewrite CC3. rewrite rev_gap. reflexivity. }
        split; cbn [wl_start wl_end wl_redir_arg wl_ws w_next_redir_arg]; auto; try congruence.
        -- split; [apply (digit_no_white _ _ _ st); auto|]. split; [right; apply (digit_plain _ _ st); auto|].
           right. exists c, r. split; [reflexivity|]. left. apply white_between; exact W1.
        -- constructor; [apply white_between; exact W1|constructor].
      * (* a digit at the beginning *)
        subst st. cbn [pending] in PE. subst h.
        assert (CC : ceq c "/" = false /\ ceq c "^" = false /\ (N_of_ascii c <? 128)%N = true /\ ceq c QUOTE = false).
        { apply a_digit_iff in W1. assert (TT : negb (is_digit c) || (negb (ceq c "/") && negb (ceq c "^") && (N_of_ascii c <? 128)%N && negb (ceq c QUOTE)) = true)
            by (clear; revert c; apply by_table; vm_compute; reflexivity).
          rewrite W1 in TT. cbn [negb orb] in TT. apply andb_true_iff in TT as [TT T4]. apply andb_true_iff in TT as [TT T3].
          apply andb_true_iff in TT as [T1 T2]. rewrite negb_true_iff in *. auto. }
        destruct CC as (CC1 & CC2 & CC3 & CC4). unfold end1. rewrite NS, CC1, CC2, CC4. cbn [st_eq andb orb le_spc].
        eexists. split; [reflexivity|]. cbn [wturned]. exists g, t, [c], r.
        split; [rewrite <- ?app_assoc; reflexivity|]. split.
        { unfold next_char. rewrite CC3. rewrite app_nil_r, (app_assoc g t [c]), (rev_app_distr (g ++ t) [c]). reflexivity. }
        split; [|cbn [length]; lia].
        split; cbn [wl_start wl_end wl_redir_arg wl_ws wl_state wl_in_quote wl_first_char w_next_redir_arg w_cmd]; auto; try discriminate; try exact I; [|lia].
        exists c. auto.
      * (* within a redirection *)
        assert (CC : ceq c "/" = false /\ ceq c "^" = false /\ (N_of_ascii c <? 128)%N = true /\ ceq c QUOTE = false).
        { destruct W3 as [[->| ->]|[->|W3]]; [vm_compute; auto|vm_compute; auto|vm_compute; auto|].
          apply a_digit_iff in W3. assert (TT : negb (is_digit c) || (negb (ceq c "/") && negb (ceq c "^") && (N_of_ascii c <? 128)%N && negb (ceq c QUOTE)) = true)
            by (clear; revert c; apply by_table; vm_compute; reflexivity).
          rewrite W3 in TT. cbn [negb orb] in TT. apply andb_true_iff in TT as [TT T4]. apply andb_true_iff in TT as [TT T3].
          apply andb_true_iff in TT as [T1 T2]. rewrite negb_true_iff in *. auto. }
        destruct CC as (CC1 & CC2 & CC3 & CC4).
        assert (ST : st_eq (no_break tr) sTxt = false /\ st_eq (no_break tr) sSpc = false /\ le_spc (no_break tr) = false).
        { destruct (no_break tr); try discriminate L; auto. }
        destruct ST as (ST1 & ST2 & ST3). unfold end1. rewrite ST1, ST2, ST3, CC1, CC2, CC4. cbn [andb orb].
        eexists. split; [reflexivity|]. cbn [wturned]. exists g, t, (h ++ [c]), r.
        split; [rewrite <- ?app_assoc; reflexivity|]. split.
        { unfold next_char. rewrite CC3. rewrite (app_assoc t h [c]), (app_assoc g (t ++ h) [c]), (rev_app_distr (g ++ t ++ h) [c]). reflexivity. }
        split; [|cbn [length]; lia].
        split; cbn [wl_start wl_end wl_redir_arg wl_ws wl_state wl_in_quote wl_first_char w_next_redir_arg w_cmd]; auto; try discriminate. lia.
Qed.

Lemma transition_proper st i : proper st -> exists tr, transition st i = Some tr.
Proof. intros P. destruct st; cbn [proper] in P; try contradiction; destruct i; cbn; eexists; reflexivity. Qed.

Lemma next_word_first s : (cs_first s = true -> cs_match s = false) ->
  cs_first (cs_next_word s) = false /\ (cs_failed (cs_next_word s) = true \/ cs_match (cs_next_word s) = false).
Proof. intros H. unfold cs_next_word. destruct (cs_first s) eqn:E; cbn; auto. Qed.

Lemma start_ok base h0 l s : (w_next_redir_arg s = true -> ends_sign h0) -> Forall between h0 -> (cs_first (w_cmd s) = true -> cs_match (w_cmd s) = false) ->
  exists k r ws, l = k ++ r /\ start_new_word command_word (rev h0 ++ base, l) s = Some (rev (h0 ++ k) ++ base, r, ws, w_next_redir_arg s) /\
    Forall between (h0 ++ k) /\ (w_next_redir_arg s = true -> behind_sign (h0 ++ k)) /\ w_next_redir_arg ws = false /\
    cs_first (w_cmd ws) = false /\ (cs_failed (w_cmd ws) = true \/ cs_match (w_cmd ws) = false).
Proof.
  intros FL FB CF. unfold start_new_word. cbn [snd].
  destruct (skip_seps_ok command_word (w_next_redir_arg s) (S (length l)) (rev h0 ++ base) l) as (k & r & -> & E & B & N); [lia|].
  rewrite E. exists k, r. eexists. split; [reflexivity|]. split; [rewrite rev_app_distr, <- app_assoc; reflexivity|].
  split; [apply Forall_app; auto|]. cbn [w_cmd w_next_redir_arg]. split; [|split; [reflexivity|apply next_word_first; exact CF]].
  intros R. destruct (FL R) as (a & s0 & -> & SG). exists a, s0, k. split; [rewrite <- app_assoc; reflexivity|]. auto.
Qed.

Lemma turn_ok base g t h l0 rest x : winv base g t h l0 rest x ->
  exists w, word_turn beyond command_word (rev (g ++ t ++ h) ++ base, rest) x = Some w /\ wturned base (g ++ t ++ h) rest l0 w.
Proof.
  intros [ES EE PR PE GA SI NW PL QU CS LD SO LE FL CF]. unfold word_turn. destruct (wl_in_quote x) eqn:IQ.
  - (* within quotes *)
    specialize (QU eq_refl). rewrite QU in PE. cbn [pending] in PE. subst h.
    destruct PL as [PL|(_ & _ & PL)]; [|discriminate]. cbn [snd]. destruct rest as [|c r].
    + eexists. split; [reflexivity|]. cbn [wturned]. exists g, t, [], []. rewrite !app_nil_r. split; [reflexivity|]. split; [reflexivity|].
      split; auto.
      * cbn [app]. split; [exact NW|auto].
      * destruct l0; [right; auto|left; cbn [length]; lia].
      * congruence.
    + destruct (next_char_split (rev (g ++ t ++ []) ++ base) c r) as (k & r' & -> & F & A & E). rewrite E. clear E.
      eexists. split; [reflexivity|]. cbn [wturned]. rewrite rev_chunk.
      exists g, (t ++ c :: k), [], r'. rewrite !app_nil_r. split; [rewrite <- ?app_assoc; reflexivity|].
      split; [rewrite <- app_assoc; reflexivity|].
      assert (LT : length r' < length (c :: k ++ r')) by (cbn [length]; rewrite app_length; lia).
      split; [|exact LT].
      split; cbn [wl_start wl_end wl_redir_arg wl_ws wl_state wl_in_quote wl_first_char w_next_redir_arg w_cmd]; auto; try discriminate.
      * rewrite pos_rev, !app_length. cbn [length]. lia.
      * rewrite QU. reflexivity.
      * replace (t ++ c :: k) with ((t ++ [c]) ++ k) by (rewrite <- app_assoc; reflexivity).
        apply no_white_app; [|apply conts_no_white; exact F]. apply no_white_snoc; [exact NW|]. auto.
      * left. replace (t ++ c :: k) with ((t ++ [c]) ++ k) by (rewrite <- app_assoc; reflexivity).
        unfold place_after. rewrite fold_step_app. fold (place_after (t ++ [c])). rewrite place_snoc, PL. cbn [step].
        change (Ascii.eqb c DQ) with (ceq c QUOTE). destruct (ceq c QUOTE); cbn [negb]; apply conts_place; auto; discriminate.
      * intros _. lia.
      * lia.
  - cbv zeta. set (z := (rev (g ++ t ++ h) ++ base, rest)).
    destruct (transition_proper (wl_state x) (input_type (peek z)) PR) as [tr TR]. rewrite TR.
    assert (PL' : place_after t = Plain \/ (rest = [] /\ h = [])) by (destruct PL as [PL|(P1 & P2 & _)]; auto).
    destruct (ends_redir (no_break tr)) eqn:ER.
    + (* a redirection ends *)
      assert (L : le_dig (wl_state x) = false).
      { clear - TR ER PR. destruct (wl_state x); cbn [proper] in PR; try contradiction; try reflexivity;
          destruct (input_type (peek z)); cbn in TR; injection TR as <-; discriminate. }
      assert (HN : h <> []) by (apply (pending_nonempty (wl_state x)); auto).
      destruct PL' as [PL'|[_ PL']]; [|contradiction].
      assert (HB : Forall between h) by (apply (pending_between (wl_state x)); auto).
      assert (FLAG : st_eq (no_break tr) sARG = true -> ends_sign h).
      { intros E. apply (pending_arg (wl_state x) h (input_type (peek z)) PR PE). rewrite TR. f_equal.
        destruct tr; cbn [no_break st_eq] in E |- *; try discriminate; reflexivity. }
      assert (FC : wl_first_char x = false) by (destruct (wl_first_char x); [specialize (LD eq_refl); congruence|reflexivity]).
      destruct (Nat.ltb (wl_start x) (wl_end x)) eqn:LW.
      * eexists. split; [reflexivity|]. cbn [wturned]. exists g, t, h, rest. split; [rewrite <- !app_assoc; reflexivity|].
        split; [reflexivity|]. split; cbn [wl_start wl_end wl_redir_arg wl_ws w_next_redir_arg w_cmd]; auto.
        split; [exact NW|]. split; [auto|]. right. destruct h as [|d h]; [contradiction|]. exists d, (h ++ rest).
        split; [reflexivity|]. left. exact (Forall_inv HB).
      * (* nothing was scanned yet *)
        destruct (start_ok base (g ++ t ++ h) rest (mkws (w_cmd (wl_ws x)) (w_command_word (wl_ws x)) (st_eq (no_break tr) sARG)))
          as (k & r & ws & RE & E & B & SG & W1 & W2 & W3).
        { cbn [w_next_redir_arg]. intros R. destruct (FLAG R) as (a & s0 & -> & SG). exists (g ++ t ++ a), s0.
          split; [rewrite <- !app_assoc; reflexivity|exact SG]. }
        { apply Forall_app. split; [exact GA|]. apply Forall_app. split; [|exact HB].
          apply Nat.ltb_ge in LW. destruct t; [constructor|cbn [length] in EE; lia]. }
        { cbn [w_cmd]. congruence. }
        subst z. rewrite E. cbn [w_next_redir_arg] in *.
        destruct (transition_proper sSpc (input_type (peek (rev ((g ++ t ++ h) ++ k) ++ base, r))) Logic.I) as [tr' TR']. rewrite TR'.
        assert (ER' : ends_redir (no_break tr') = false).
        { clear - TR'. revert TR'. generalize (input_type (peek (rev ((g ++ t ++ h) ++ k) ++ base, r))). intros i T.
          destruct i; cbn in T; injection T as <-; reflexivity. }
        rewrite pos_rev.
        destruct (tail_ok base ((g ++ t ++ h) ++ k) [] [] l0 r ws (st_eq (no_break tr) sARG) (length base + length ((g ++ t ++ h) ++ k))
          (length base + length ((g ++ t ++ h) ++ k)) sSpc tr' (wl_first_char x) (if wl_first_char x then ceq (peek (rev (g ++ t ++ h) ++ base, rest)) "/" else wl_first_slash x))
          as (w & WE & WT); cbn [app length]; rewrite ?app_nil_r; auto.
        -- exact Logic.I.
        -- reflexivity.
        -- apply no_white_nil.
        -- intros _. specialize (SO FC). subst rest. rewrite app_length in SO. lia.
        -- subst rest. rewrite app_length in LE. lia.
        -- cbn [app] in WE. rewrite !app_nil_r in WE. rewrite WE. eexists. split; [reflexivity|].
           cbn [app] in WT. rewrite !app_nil_r in WT. subst rest.
           destruct w as [z' x'|z' x']; cbn [wturned] in WT |- *;
             destruct WT as (g' & t' & h' & r' & W4 & W5); exists g', t', h', r'; (split; [rewrite <- W4, <- !app_assoc; reflexivity|]); [|exact W5].
           destruct W5 as (W5 & W6 & W7). split; [exact W5|]. split; [exact W6|]. rewrite app_length. lia.
    + subst z. apply (tail_ok base g t h l0 rest (wl_ws x) (wl_redir_arg x) (wl_start x) (wl_end x) (wl_state x) tr (wl_first_char x)); auto.
Qed.

Lemma loop_words : forall fuel base g t h l0 rest x, length rest < fuel -> winv base g t h l0 rest x ->
  exists g' t' h' rest' x', word_loop beyond command_word fuel (rev (g ++ t ++ h) ++ base, rest) x = Some ((rev (g' ++ t' ++ h') ++ base, rest'), x') /\
    (g ++ t ++ h) ++ rest = g' ++ t' ++ h' ++ rest' /\ wdone base g' t' h' l0 rest' x'.
Proof.
  induction fuel as [|fuel IH]; intros base g t h l0 rest x F I; [lia|]. cbn [word_loop].
  destruct (turn_ok _ _ _ _ _ _ _ I) as (w & E & T). rewrite E. destruct w as [z x'|z x']; cbn [wturned] in T.
  - destruct T as (g' & t' & h' & r' & T1 & -> & T2 & T3). destruct (IH base g' t' h' l0 r' x') as (g2 & t2 & h2 & r2 & x2 & U1 & U2 & U3); [lia|exact T2|].
    exists g2, t2, h2, r2, x2. split; [exact U1|]. split; [|exact U3]. rewrite T1, <- U2, <- !app_assoc. reflexivity.
  - destruct T as (g' & t' & h' & r' & T1 & -> & T2). exists g', t', h', r', x'. auto.
Qed.
End Tail.

Section Words.
Variable beyond : byte.

Lemma word_next_ok base h0 l s : Forall between h0 -> (w_next_redir_arg s = true -> ends_sign h0) ->
  (cs_first (w_cmd s) = true -> cs_match (w_cmd s) = false) -> l <> [] ->
  exists g t h rest ra s',
    word_next beyond (rev h0 ++ base, l) s = Some (length base + length g, length t, ra, (rev (g ++ t ++ h) ++ base, rest), s') /\
    h0 ++ l = g ++ t ++ h ++ rest /\ Forall between g /\ (ra = true -> behind_sign g) /\ word_text ra t (h ++ rest) /\
    Forall between h /\ (w_next_redir_arg s' = true -> ends_sign h) /\ (cs_first (w_cmd s') = true -> cs_match (w_cmd s') = false) /\
    length rest < length l.
Proof.
  intros FB FL CF NE. unfold word_next.
  destruct (start_ok (w_command_word s) base h0 l s FL FB CF) as (k & r & ws & -> & E & B & SG & W1 & W2 & W3). rewrite E. clear E. cbn [snd].
  rewrite pos_rev.
  destruct (loop_words beyond (w_command_word s) (S (S (length r))) base (h0 ++ k) [] [] (length r) r
    (mkwl ws (w_next_redir_arg s) (length base + length (h0 ++ k)) (length base + length (h0 ++ k)) true false false sSpc))
    as (g & t & h & r' & x & L1 & L2 & L3).
  { lia. }
  { split; cbn [wl_start wl_end wl_redir_arg wl_ws wl_state wl_in_quote wl_first_char w_next_redir_arg w_cmd length];
      auto; try discriminate; try exact I; try reflexivity; first [apply no_white_nil|left; reflexivity|lia]. }
  cbn [app] in L1, L2. rewrite !app_nil_r in L1, L2. rewrite L1. destruct L3 as [D1 D2 D3 D4 D5 D6 D7 D8 D9].
  exists g, t, h, r', (wl_redir_arg x). eexists. split.
  { rewrite D1, D2. replace (length base + length g + length t - (length base + length g)) with (length t) by lia. reflexivity. }
  split; [rewrite <- L2, <- app_assoc; reflexivity|]. split; [exact D3|]. split; [exact D4|]. split; [exact D5|]. split; [exact D6|].
  cbn [w_next_redir_arg w_cmd]. split; [exact D8|]. split; [congruence|].
  rewrite app_length. destruct D7 as [D7|[D7 ->]]; [lia|]. destruct r; [|discriminate]. destruct k; [contradiction|]. cbn [length]. lia.
Qed.

Lemma words_ok : forall fuel base h0 l s, length l < fuel -> Forall between h0 -> (w_next_redir_arg s = true -> ends_sign h0) ->
  (cs_first (w_cmd s) = true -> cs_match (w_cmd s) = false) ->
  exists xs, words_from fuel beyond (rev h0 ++ base, l) s = Some xs /\ words_of (length base) (h0 ++ l) xs.
Proof.
  induction fuel as [|fuel IH]; intros base h0 l s F FB FL CF; [lia|]. cbn [words_from snd]. destruct l as [|c l].
  - exists []. split; [reflexivity|]. rewrite app_nil_r. apply w_end. exact FB.
  - destruct (word_next_ok base h0 (c :: l) s FB FL CF) as (g & t & h & r & ra & s' & E & EQ & H1 & H2 & H3 & H4 & H5 & H6 & H7); [discriminate|].
    rewrite E, EQ. clear E EQ.
    destruct (IH (rev (g ++ t) ++ base) h r s') as (xs & X1 & X2); auto; [cbn [length] in *; lia|].
    rewrite app_assoc, (rev_app_distr (g ++ t) h), <- app_assoc, X1.
    eexists. split; [reflexivity|]. apply w_word; auto.
    rewrite app_length, rev_length, app_length in X2.
    replace (length base + length g + length t) with (length g + length t + length base) by lia. exact X2.
Qed.
End Words.
