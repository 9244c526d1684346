(** The scan for a rem command (CmdTokModel.cs_test within cmd_loop) against CmdTokSpec. *)
From Verif Require Import Base DoskeyModel DoskeySpec DoskeyProofs DoskeyName CmdTokModel CmdTokSpec CmdTokProofs.

Definition REM : bytes := lit "rem".
(** A beginning of rem, in any case. *)
Definition start_of_rem (w : bytes) : Prop := exists m, map lower w ++ m = REM.

Lemma lower_r c : lower c = "r"%char -> In c (lit "rR").
Proof.
  intros H. apply inb_iff. assert (T : negb (ceq (lower c) "r") || inb c (lit "rR") = true).
  { clear H. revert c. apply by_table. vm_compute. reflexivity. }
  rewrite H in T. exact T.
Qed.
Lemma lower_e c : lower c = "e"%char -> In c (lit "eE").
Proof.
  intros H. apply inb_iff. assert (T : negb (ceq (lower c) "e") || inb c (lit "eE") = true).
  { clear H. revert c. apply by_table. vm_compute. reflexivity. }
  rewrite H in T. exact T.
Qed.
Lemma lower_m c : lower c = "m"%char -> In c (lit "mM").
Proof.
  intros H. apply inb_iff. assert (T : negb (ceq (lower c) "m") || inb c (lit "mM") = true).
  { clear H. revert c. apply by_table. vm_compute. reflexivity. }
  rewrite H in T. exact T.
Qed.

Definition start_of_remb (w : bytes) : bool := eqb_bytes (firstn (length w) REM) (map lower w).
Lemma start_of_remb_iff w : start_of_remb w = true <-> start_of_rem w.
Proof.
  unfold start_of_remb, start_of_rem. rewrite eqb_bytes_eq. split.
  - intros H. exists (skipn (length w) REM). rewrite <- H. apply firstn_skipn.
  - intros [m H]. rewrite <- H, <- (map_length lower w). apply firstn_app_exact. reflexivity.
Qed.

(** What a letter of rem is not. *)
Lemma rem_letter w c : start_of_rem (w ++ [c]) ->
  ~ white c /\ ~ a_digit c /\ (N_of_ascii c < 128)%N /\ c <> DQ.
Proof.
  intros [m H]. rewrite map_app in H. cbn [map] in H. rewrite <- app_assoc in H. cbn [app] in H.
  assert (I : In (lower c) REM) by (rewrite <- H; apply in_or_app; right; left; reflexivity).
  apply inb_iff in I.
  assert (T : negb (inb (lower c) REM) || (negb (is_white c) && negb (is_digit c) && (N_of_ascii c <? 128)%N && negb (ceq c DQ)) = true).
  { clear H I. revert c. apply by_table. vm_compute. reflexivity. }
  rewrite I in T. cbn [negb orb] in T.
  apply andb_true_iff in T as [T T4]. apply andb_true_iff in T as [T T3]. apply andb_true_iff in T as [T1 T2].
  rewrite negb_true_iff in *. rewrite white_iff, a_digit_iff.
  split; [congruence|]. split; [congruence|]. split; [lia|]. apply ceq_false; exact T4.
Qed.

Lemma flag_true w : command_flag w = Some true -> map lower w = REM.
Proof.
  unfold command_flag. cbv zeta. destruct (eqb_bytes (map lower w) (lit "rem")) eqn:E.
  - intros _. apply eqb_bytes_eq in E. exact E.
  - destruct (existsb _ _); discriminate.
Qed.
Lemma flag_rem w : map lower w = REM -> command_flag w = Some true.
Proof. intros E. unfold command_flag. cbv zeta. rewrite E. reflexivity. Qed.

Lemma no_caret_exists w : ~ In "^"%char w -> existsb (Ascii.eqb "^"%char) w = false.
Proof. intros H. destruct (existsb _ _) eqn:E; [|reflexivity]. exfalso. apply H. apply inb_iff. exact E. Qed.

(** The outcome of a test that is not a hit. *)
Inductive tested (cs : cmd_state) (c : byte) : cmd_state -> Prop :=
| t_failed cs' : cs_failed cs' = true -> tested cs c cs'
| t_skipped : cs_word cs = [] -> In c (lit " (@" ++ [TAB]) -> tested cs c cs
| t_dead w f : w = cs_word cs ++ [c] -> ~ start_of_rem w -> tested cs c (mkcs w f false false)
| t_more w f m : w = cs_word cs ++ [c] -> start_of_rem w -> (m = true <-> map lower w = REM) -> tested cs c (mkcs w f false m).

Lemma exempt_iff c : (ceq c SPC || ceq c TAB || ceq c "(" || ceq c "@") = true -> In c (lit " (@" ++ [TAB]).
Proof.
  intros H. apply inb_iff. assert (T : negb (ceq c SPC || ceq c TAB || ceq c "(" || ceq c "@") || inb c (lit " (@" ++ [TAB]) = true).
  { clear H. revert c. apply by_table. vm_compute. reflexivity. }
  rewrite H in T. exact T.
Qed.

Lemma test_cases cs c ns hit cs' : ~ In "^"%char (cs_word cs ++ [c]) -> le_dig ns = true ->
  cs_test true cs c ns = (hit, cs') ->
  if hit then cs_match cs = true /\ has command_delimiters c = true /\ cs_failed cs = false else tested cs c cs'.
Proof.
  intros NC L H. unfold cs_test in H. destruct (cs_failed cs) eqn:FL.
  - injection H as <- <-. apply t_failed. exact FL.
  - rewrite L in H. cbn [negb orb] in H.
    destruct (match cs_word cs with [] => true | _ => false end &&
              (ceq c SPC || ceq c TAB || ceq c "(" || ceq c "@")) eqn:SK.
    + injection H as <- <-. apply andb_true_iff in SK as [W X]. apply t_skipped; [destruct (cs_word cs); congruence|].
      apply exempt_iff. exact X.
    + clear SK. destruct (Nat.ltb 8 (length (cs_word cs)) || (128 <=? N_of_ascii c)%N) eqn:BIG.
      * injection H as <- <-. apply t_failed. reflexivity.
      * destruct (cs_match cs && has command_delimiters c) eqn:HIT.
        -- injection H as <- <-. apply andb_true_iff in HIT as [M D]. auto.
        -- cbv zeta in H. unfold is_cmd_command in H. rewrite (no_caret_exists _ NC) in H.
           destruct (command_flag (cs_word cs ++ [c])) as [[|]|] eqn:FG.
           ++ cbn [negb andb] in H. injection H as <- <-.
              apply flag_true in FG. apply t_more; [reflexivity| |]; [exists []; rewrite app_nil_r; exact FG|].
              rewrite FG. split; reflexivity.
           ++ cbn [negb andb] in H. injection H as <- <-. apply t_failed. reflexivity.
           ++ injection H as <- <-. destruct (start_of_remb (cs_word cs ++ [c])) eqn:SR.
              ** apply start_of_remb_iff in SR. apply t_more; [reflexivity|exact SR|].
                 split; [discriminate|]. intros E. apply flag_rem in E. congruence.
              ** apply t_dead; [reflexivity|]. rewrite <- start_of_remb_iff. congruence.
Qed.

(** ** The invariant *)

Lemma no_command_nil : no_command_yet [].
Proof. intros a c b H. destruct a; discriminate. Qed.
Lemma no_command_snoc u c : no_command_yet u -> In c (lit " (@<>" ++ [TAB]) \/ in_redirection_arg u ->
  no_command_yet (u ++ [c]).
Proof.
  intros N H a x b E. destruct (snoc_cases b) as [->|(b' & y & ->)].
  - apply app_inj_tail in E as [-> ->]. exact H.
  - rewrite app_comm_cons, app_assoc in E. apply app_inj_tail in E as [-> _]. apply (N a x b'). reflexivity.
Qed.

Lemma arg_snoc u c : in_redirection_arg u -> ~ white c \/ place_after u = Quoted -> in_redirection_arg (u ++ [c]).
Proof.
  intros (a & s & h & o & b & -> & G & H1 & H2 & H3) NW. exists a, s, h, o, (b ++ [c]).
  split. { rewrite <- !app_assoc. cbn [app]. rewrite <- !app_assoc. reflexivity. }
  split; [exact G|]. split; [exact H1|]. split; [exact H2|].
  intros b1 x b2 E W. destruct (snoc_cases b2) as [->|(b' & y & ->)].
  - apply app_inj_tail in E as [-> ->]. destruct NW as [NW|Q]; [contradiction|exact Q].
  - rewrite app_comm_cons, app_assoc in E. apply app_inj_tail in E as [-> _]. apply (H3 b1 x b'); [reflexivity|exact W].
Qed.
Lemma arg_app k : forall u, in_redirection_arg u -> Forall (fun c => ~ white c) k -> in_redirection_arg (u ++ k).
Proof.
  induction k as [|c k IH]; intros u A F; [rewrite app_nil_r; exact A|].
  replace (u ++ c :: k) with ((u ++ [c]) ++ k) by (rewrite <- app_assoc; reflexivity).
  apply IH; [|exact (Forall_inv_tail F)]. apply arg_snoc; [exact A|left; exact (Forall_inv F)].
Qed.
Lemma no_command_app k : forall u, no_command_yet u -> in_redirection_arg u -> Forall (fun c => ~ white c) k ->
  no_command_yet (u ++ k).
Proof.
  induction k as [|c k IH]; intros u N A F; [rewrite app_nil_r; exact N|].
  replace (u ++ c :: k) with ((u ++ [c]) ++ k) by (rewrite <- app_assoc; reflexivity).
  apply IH; [apply no_command_snoc; auto| |exact (Forall_inv_tail F)].
  apply arg_snoc; [exact A|left; exact (Forall_inv F)].
Qed.

Lemma arg_sign u c : sign c -> in_redirection_arg (u ++ [c]).
Proof.
  intros G. exists u, c, [], [], []. split; [reflexivity|]. split; [exact G|]. split; [auto|]. split; [auto|].
  intros b1 x b2 E. destruct b1; discriminate.
Qed.

(** A blank right behind a redirection. *)
Lemma arg_blank u st c : proper st -> trail u st -> le_dig st = false -> white c -> in_redirection_arg (u ++ [c]).
Proof.
  intros P T L W.
  assert (A : (exists a s, u = a ++ [s] /\ sign s) \/ (exists a s, u = a ++ [s; AMP] /\ sign s) \/
              (exists a s d, u = a ++ [s; AMP; d] /\ sign s /\ a_digit d)).
  { destruct st; cbn [proper le_dig] in *; try contradiction; try discriminate; cbn [trail] in T; try (left; exact T).
    - left. destruct T as (a & d & D & ->). exists (a ++ [d]), "<"%char. rewrite <- app_assoc. split; [reflexivity|apply lt_sign].
    - left. destruct T as (a & d & D & ->). exists (a ++ [d]), ">"%char. rewrite <- app_assoc. split; [reflexivity|apply gt_sign].
    - left. destruct T as (a & d & D & ->). exists (a ++ [d; "<"%char]), "<"%char. rewrite <- app_assoc. split; [reflexivity|apply lt_sign].
    - left. destruct T as (a & d & D & ->). exists (a ++ [d; ">"%char]), ">"%char. rewrite <- app_assoc. split; [reflexivity|apply gt_sign].
    - right. left. exact T.
    - right. right. destruct T as (a & s & d & -> & G & D). exists a, s, d. auto. }
  destruct A as [(a & s & -> & G)|[(a & s & -> & G)|(a & s & d & -> & G & D)]].
  - exists a, s, [], [c], []. split; [rewrite <- app_assoc; reflexivity|]. split; [exact G|]. split; [auto|].
    split; [right; exists c; auto|]. intros b1 x b2 E. destruct b1; discriminate.
  - exists a, s, [AMP], [c], []. split; [rewrite <- app_assoc; reflexivity|]. split; [exact G|]. split; [auto|].
    split; [right; exists c; auto|]. intros b1 x b2 E. destruct b1; discriminate.
  - exists a, s, [AMP; d], [c], []. split; [rewrite <- app_assoc; reflexivity|]. split; [exact G|]. split; [right; right; exists d; auto|].
    split; [right; exists c; auto|]. intros b1 x b2 E. destruct b1; discriminate.
Qed.

(** Behind the redirection's sign, and within its argument. *)
Definition within_redirection (arg : bool) (st : tstate) : bool := arg || negb (le_dig st).

Inductive scanned (u : bytes) (arg inq : bool) (st : tstate) (cs : cmd_state) : Prop :=
| sc_caret : In "^"%char u -> scanned u arg inq st cs
| sc_failed : cs_failed cs = true -> scanned u arg inq st cs
| sc_dead : ~ start_of_rem (cs_word cs) -> ~ In "^"%char (cs_word cs) -> cs_match cs = false -> scanned u arg inq st cs
| sc_none : cs_word cs = [] -> cs_match cs = false -> no_command_yet u -> (inq = true -> arg = true) ->
    (within_redirection arg st = true -> in_redirection_arg u) -> scanned u arg inq st cs
| sc_growing p : cs_word cs <> [] -> u = p ++ cs_word cs -> no_command_yet p -> start_of_rem (cs_word cs) -> arg = false -> st = sTxt ->
    inq = false -> ~ In "^"%char (cs_word cs) -> (cs_match cs = true <-> map lower (cs_word cs) = REM) ->
    scanned u arg inq st cs
| sc_stuck : cs_word cs <> [] -> start_of_rem (cs_word cs) -> map lower (cs_word cs) <> REM -> cs_match cs = false ->
    ~ In "^"%char (cs_word cs) -> within_redirection arg st = true -> scanned u arg inq st cs
| sc_rem : rem_command u -> scanned u arg inq st cs.

Lemma rem_app u v : rem_command u -> rem_command (u ++ v).
Proof.
  intros [C|(p & r & e & m & d & q & -> & H)].
  - left. apply in_or_app. left. exact C.
  - right. exists p, r, e, m, d, (q ++ v). split; [|exact H].
    rewrite <- !app_assoc. cbn [app]. reflexivity.
Qed.

Lemma rem_word p w d : map lower w = REM -> no_command_yet p -> has command_delimiters d = true ->
  rem_command (p ++ w ++ [d]).
Proof.
  intros E N D. right. destruct w as [|r [|e [|m [|x w]]]]; try discriminate.
  unfold REM in E. cbn [map lit list_ascii_of_string] in E. injection E as Er Ee Em.
  exists p, r, e, m, d, []. split; [reflexivity|]. split; [exact N|]. split; [apply lower_r; exact Er|].
  split; [apply lower_e; exact Ee|]. split; [apply lower_m; exact Em|]. apply inb_iff. exact D.
Qed.

Lemma sign_delim c : sign c -> has command_delimiters c = true.
Proof. intros [->| ->]; reflexivity. Qed.

(** The rest of a chunk: nothing, or harmless bytes behind a byte that is not in rem. *)
Definition chunk (c : byte) (ks : bytes) : Prop :=
  ks = [] \/ (((128 <= N_of_ascii c)%N \/ a_digit c) /\ Forall (fun x => ~ white x) ks).

Lemma rem_no_more w c : map lower w = REM -> ~ start_of_rem (w ++ [c]).
Proof.
  intros E [m H]. rewrite map_app, E in H. discriminate H.
Qed.
Lemma start_not_full w : start_of_rem w -> map lower w = REM \/ map lower w <> REM.
Proof. intros _. destruct (eqb_bytes (map lower w) REM) eqn:E; [left; apply eqb_bytes_eq; auto|right; apply eqb_bytes_neq; auto]. Qed.

Lemma dead_more w c : ~ start_of_rem w -> ~ start_of_rem (w ++ [c]).
Proof. intros D [m H]. apply D. rewrite map_app, <- app_assoc in H. exists (map lower [c] ++ m). exact H. Qed.

Lemma snoc_caret w c : ~ In "^"%char w -> c <> "^"%char -> ~ In "^"%char (w ++ [c]).
Proof. intros A B H. apply in_app_or in H as [H|[H|[]]]; congruence. Qed.

Lemma scanned_step u any arg st c ns arg' cs ks :
  scanned u arg false st cs -> proper st -> trail u st -> settled u any arg st c ns arg' -> ns <> sBREAK -> c <> "^"%char -> chunk c ks ->
  let '(hit, cs') := if le_dig ns && negb arg' then cs_test true cs c ns else (false, cs) in
  if hit then rem_command (u ++ [c]) else scanned (u ++ c :: ks) arg' (ceq c QUOTE) ns cs'.
Proof.
  intros J P T S NB NC CH.
  destruct (if le_dig ns && negb arg' then cs_test true cs c ns else (false, cs)) as [hit cs'] eqn:E.
  destruct (in_dec ascii_dec "^"%char u) as [CU|CU].
  { destruct hit; [left; apply in_or_app; left; exact CU|apply sc_caret; apply in_or_app; left; exact CU]. }
  destruct J as [C|F|D DC DM|W M N Q A|p W U N S0 HA HS HQ WC HM|W S0 NF HM WC WR|R].
  - contradiction.
  - (* failed *)
    assert (hit = false /\ cs' = cs) as [-> ->].
    { destruct (le_dig ns && negb arg'); [|injection E; auto]. unfold cs_test in E. rewrite F in E. injection E; auto. }
    apply sc_failed. exact F.
  - (* dead *)
    destruct (le_dig ns && negb arg') eqn:L.
    + apply andb_true_iff in L as [L _]. apply test_cases in E; [|apply snoc_caret; auto|exact L].
      destruct hit; [destruct E; congruence|]. destruct E as [cs' F|W X|w f -> X|w f m -> X Y].
      * apply sc_failed. exact F.
      * apply sc_dead; auto.
      * apply sc_dead; cbn [cs_word cs_match]; auto. apply snoc_caret; auto.
      * exfalso. exact (dead_more _ c D X).
    + injection E as <- <-. apply sc_dead; auto.
  - (* nothing yet *)
    assert (EXT : in_redirection_arg u -> ~ white c -> arg' = true \/ le_dig ns = false -> scanned (u ++ c :: ks) arg' (ceq c QUOTE) ns cs).
    { intros I NW X. assert (FW : Forall (fun x => ~ white x) (c :: ks)).
      { constructor; [exact NW|]. destruct CH as [->|[_ CH]]; [constructor|exact CH]. }
      apply sc_none; auto.
      - apply no_command_app; auto.
      - intros QQ. destruct X as [X|X]; [exact X|]. apply ceq_true in QQ. subst c. exfalso.
        inversion S; subst; cbn [le_dig] in X; try discriminate; try congruence;
          first [destruct H; discriminate|apply a_digit_iff in H; discriminate].
      - intros _. apply arg_app; auto. }
    assert (TEST : le_dig ns = true -> cs_test true cs c ns = (hit, cs') -> arg' = false ->
                   if hit then rem_command (u ++ [c]) else scanned (u ++ c :: ks) arg' (ceq c QUOTE) ns cs').
    { intros L X HA. apply test_cases in X; [|rewrite W; intros [Y|[]]; congruence|exact L].
      destruct hit; [destruct X; congruence|]. destruct X as [cs' F|W0 X|w f -> X|w f m -> X Y].
      - apply sc_failed. exact F.
      - assert (ks = []) as ->.
        { destruct CH as [->|[CH _]]; [reflexivity|]. exfalso. apply inb_iff in X.
          assert (TT : negb (inb c (lit " (@" ++ [TAB])) || ((N_of_ascii c <? 128)%N && negb (is_digit c)) = true).
          { clear - c. revert c. apply by_table. vm_compute. reflexivity. }
          rewrite X in TT. cbn [negb orb] in TT. apply andb_true_iff in TT as [T1 T2].
          destruct CH as [CH|CH]; [lia|]. apply a_digit_iff in CH. rewrite CH in T2. discriminate. }
        apply sc_none; auto.
        + apply no_command_snoc; [exact N|left]. apply inb_iff. apply inb_iff in X.
          assert (TT : negb (inb c (lit " (@" ++ [TAB])) || inb c (lit " (@<>" ++ [TAB]) = true).
          { clear - c. revert c. apply by_table. vm_compute. reflexivity. }
          rewrite X in TT. exact TT.
        + intros QQ. apply ceq_true in QQ. subst c. apply inb_iff in X. discriminate.
        + rewrite HA. unfold within_redirection. rewrite L. discriminate.
      - rewrite W in *. cbn [app] in *. apply sc_dead; cbn [cs_word cs_match]; auto. intros [Y|[]]; congruence.
      - rewrite W in *. cbn [app] in *. destruct (rem_letter [] c X) as (L1 & L2 & L3 & L4).
        assert (ks = []) as -> by (destruct CH as [->|[[CH|CH] _]]; [reflexivity|lia|contradiction]).
        assert (ns = sTxt) as ->.
        { inversion S; subst; cbn [le_dig] in L; try discriminate; try reflexivity; try contradiction. congruence. }
        apply (sc_growing _ _ _ _ _ u); cbn [cs_word cs_match]; auto; [discriminate|apply ceq_false; exact L4|].
        intros [Z|[]]; congruence. }
    inversion S; subst.
    + congruence.
    + cbn [le_dig] in *. cbn [andb] in E. destruct arg'.
      * cbn [negb] in E. injection E as <- <-. apply EXT; auto.
      * cbn [negb] in E. apply TEST; auto.
    + cbn [le_dig negb andb] in E. injection E as <- <-. apply EXT; auto. apply A. unfold within_redirection. rewrite H3. apply orb_true_r.
    + cbn [le_dig negb andb] in E. apply TEST; auto.
    + cbn [le_dig negb andb] in E. injection E as <- <-.
      assert (ks = []) as ->.
      { destruct CH as [->|[[CH|CH] _]]; [reflexivity| |]; exfalso.
        - destruct (big_is_text _ CH) as (_ & _ & _ & X). contradiction.
        - apply a_digit_iff in CH. apply white_iff in H.
          assert (TT : negb (is_white c) || negb (is_digit c) = true) by (clear - c; revert c; apply by_table; vm_compute; reflexivity).
          rewrite H, CH in TT. discriminate. }
      apply sc_none; auto.
      * apply no_command_snoc; [exact N|right]. apply A. unfold within_redirection. rewrite H0. apply orb_true_r.
      * intros _. apply (arg_blank u st); auto.
    + cbn [le_dig negb andb] in E. apply TEST; auto.
    + cbn [le_dig negb andb] in E. injection E as <- <-. apply EXT; auto.
      * apply A. unfold within_redirection. rewrite H0. apply orb_true_r.
      * intros X. apply a_digit_iff in H. apply white_iff in X.
        assert (TT : negb (is_white c) || negb (is_digit c) = true) by (clear - c; revert c; apply by_table; vm_compute; reflexivity).
        rewrite H, X in TT. discriminate.
    + rewrite H0 in E. cbn [andb] in E. injection E as <- <-.
      assert (ks = []) as ->.
      { destruct CH as [->|[[CH|CH] _]]; [reflexivity| |]; exfalso.
        - destruct H as [->| ->]; cbn in CH; lia.
        - exact (digit_not_sign _ CH H). }
      apply sc_none; auto.
      * apply no_command_snoc; [exact N|left]. destruct H as [->| ->]; cbn; tauto.
      * intros QQ. apply ceq_true in QQ. subst c. destruct H; discriminate.
      * intros _. apply arg_sign. exact H.
    + cbn [le_dig negb andb] in E. injection E as <- <-. apply EXT; auto.
      * apply A. unfold within_redirection. rewrite H1. apply orb_true_r.
      * apply amp_bar_plain. auto.
    + cbn [le_dig negb andb] in E. injection E as <- <-. apply EXT; auto.
      * apply A. apply orb_true_r.
      * intros X. apply a_digit_iff in H. apply white_iff in X.
        assert (TT : negb (is_white c) || negb (is_digit c) = true) by (clear - c; revert c; apply by_table; vm_compute; reflexivity).
        rewrite H, X in TT. discriminate.
  - (* within rem *)
    subst arg st u.
    assert (TEST : le_dig ns = true -> cs_test true cs c ns = (hit, cs') -> arg' = false ->
                   if hit then rem_command ((p ++ cs_word cs) ++ [c]) else scanned ((p ++ cs_word cs) ++ c :: ks) arg' (ceq c QUOTE) ns cs').
    { intros L X HA. apply test_cases in X; [|apply snoc_caret; auto|exact L].
      destruct hit.
      - destruct X as (X1 & X2 & X3). rewrite <- app_assoc. apply rem_word; auto. apply HM; exact X1.
      - destruct X as [cs' F|W0 X|w f -> X|w f m -> X Y].
        + apply sc_failed. exact F.
        + congruence.
        + apply sc_dead; cbn [cs_word cs_match]; auto. apply snoc_caret; auto.
        + destruct (rem_letter _ c X) as (L1 & L2 & L3 & L4).
          assert (ks = []) as -> by (destruct CH as [->|[[CH|CH] _]]; [reflexivity|lia|contradiction]).
          assert (ns = sTxt) as ->.
          { inversion S; subst; cbn [le_dig] in L; try discriminate; try reflexivity; try contradiction. congruence. }
          apply (sc_growing _ _ _ _ _ p); cbn [cs_word cs_match]; auto.
          * intros Z. destruct (cs_word cs); discriminate.
          * rewrite <- app_assoc. reflexivity.
          * apply ceq_false; exact L4.
          * apply snoc_caret; auto. }
    inversion S; subst; try (cbn [le_dig] in *; discriminate); try congruence.
    + cbn [le_dig negb andb] in E. apply TEST; auto.
    + cbn [le_dig negb andb] in E. apply TEST; auto.
    + rewrite H0 in E. cbn [andb] in E. injection E as <- <-.
      destruct (start_not_full _ S0) as [FULL|NF].
      * apply sc_rem. replace ((p ++ cs_word cs) ++ c :: ks) with ((p ++ cs_word cs ++ [c]) ++ ks) by (rewrite <- !app_assoc; reflexivity).
        apply rem_app. apply rem_word; auto. apply sign_delim; exact H.
      * apply sc_stuck; auto.
        -- destruct (cs_match cs) eqn:Z; [|reflexivity]. exfalso. apply NF, HM. reflexivity.
        -- unfold within_redirection. rewrite H0. apply orb_true_r.
  - (* stuck *)
    assert (TEST : le_dig ns = true -> cs_test true cs c ns = (hit, cs') -> arg' = false -> white c \/ a_digit c ->
                   if hit then rem_command (u ++ [c]) else scanned (u ++ c :: ks) arg' (ceq c QUOTE) ns cs').
    { intros L X HA HC. apply test_cases in X; [|apply snoc_caret; auto|exact L].
      destruct hit; [destruct X; congruence|].
      destruct X as [cs' F|W0 X|w f -> X|w f m -> X Y].
      - apply sc_failed. exact F.
      - congruence.
      - apply sc_dead; cbn [cs_word cs_match]; auto. apply snoc_caret; auto.
      - destruct (rem_letter _ c X) as (L1 & L2 & L3 & L4). tauto. }
    assert (STAY : within_redirection arg' ns = true -> cs' = cs -> scanned (u ++ c :: ks) arg' (ceq c QUOTE) ns cs').
    { intros WR' ->. apply sc_stuck; auto. }
    inversion S; subst.
    + congruence.
    + unfold within_redirection in WR. rewrite H1 in WR. cbn [negb] in WR. rewrite orb_false_r in WR. subst arg'.
      cbn [le_dig negb andb] in E. injection E as <- <-. apply STAY; reflexivity.
    + cbn [le_dig negb andb] in E. injection E as <- <-. apply STAY; reflexivity.
    + cbn [le_dig negb andb] in E. apply TEST; auto.
    + cbn [le_dig negb andb] in E. injection E as <- <-. apply STAY; reflexivity.
    + cbn [le_dig negb andb] in E. apply TEST; auto.
    + cbn [le_dig negb andb] in E. injection E as <- <-. apply STAY; reflexivity.
    + rewrite H0 in E. cbn [andb] in E. injection E as <- <-. apply STAY; [|reflexivity].
      unfold within_redirection. rewrite H0. apply orb_true_r.
    + cbn [le_dig negb andb] in E. injection E as <- <-. apply STAY; reflexivity.
    + cbn [le_dig negb andb] in E. injection E as <- <-. apply STAY; reflexivity.
  - destruct hit; [apply rem_app; exact R|apply sc_rem; apply rem_app; exact R].
Qed.

(** Within quotes. *)
Lemma scanned_quoted u arg st cs c ks : scanned u arg true st cs -> place_after u = Quoted -> st = sTxt -> Forall (fun x => ~ white x) ks ->
  scanned (u ++ c :: ks) arg (negb (ceq c QUOTE)) st cs.
Proof.
  intros J PQ ST F. destruct J as [C|FL|D DC DM|W M N Q A|p W U N S0 HA HS HQ WC HM|W S0 NF HM WC WR|R].
  - apply sc_caret. apply in_or_app. left. exact C.
  - apply sc_failed. exact FL.
  - apply sc_dead; auto.
  - pose proof (Q eq_refl) as ->. assert (I : in_redirection_arg u) by (apply A; reflexivity).
    replace (u ++ c :: ks) with ((u ++ [c]) ++ ks) by (rewrite <- app_assoc; reflexivity).
    assert (I' : in_redirection_arg (u ++ [c])) by (apply arg_snoc; auto).
    apply sc_none; auto.
    + apply no_command_app; auto. apply no_command_snoc; auto.
    + intros _. apply arg_app; auto.
  - discriminate.
  - apply sc_stuck; auto.
  - apply sc_rem. apply rem_app. exact R.
Qed.
