(** C39: splitting a line into commands and words. *)
From Verif Require Import Base DoskeyModel DoskeySpec DoskeyProofs CmdTokModel CmdTokSpec CmdTokProofs CmdTokRem CmdTokLoop CmdTokCommands CmdTokWords.

(** Always ends, never reads outside of its table; the commands are in order, within the line, do not overlap, and
    everything but blanks, @, parentheses and separators is within one. *)
Theorem commands_cover lookup enhanced line :
  exists xs, commands lookup enhanced line = Some xs /\ spans (fun c => In c (lit " @()&|")) 0 line xs.
Proof.
  destruct (commands_ok lookup enhanced (S (length line)) [] line) as (xs & E & S & _); [lia|congruence|]. exists xs. auto.
Qed.
Print Assumptions commands_cover.

(** A separator ends a command exactly when it is outside of quotes, not behind ^, and there is none of the reasons in
    [no_end]. *)
Theorem commands_split lookup enhanced line : ascii_names lookup ->
  exists xs, commands lookup enhanced line = Some xs /\ split_into lookup true 0 line xs.
Proof.
  intros A. destruct (commands_ok lookup enhanced (S (length line)) [] line) as (xs & E & _ & S); [lia|congruence|]. exists xs.
  split; [exact E|]. exact (S A).
Qed.
Print Assumptions commands_split.

(** What a line without separators, parentheses and leading blanks gives: itself. *)
Theorem commands_whole lookup enhanced line : ascii_names lookup -> line <> [] -> Forall (fun c => ~ In c (lit " @()&|")) line ->
  commands lookup enhanced line = Some [(0, length line)].
Proof.
  intros A N F. destruct (commands_split lookup enhanced line A) as (xs & E & S). rewrite E. f_equal. clear E.
  inversion S as [|first o sep pre text close rest l SEP LE CL CT S2]; subst; [congruence|].
  cbn [separator] in SEP. subst sep. cbn [app length] in *.
  assert (P : pre = []).
  { destruct pre as [|c pre]; [reflexivity|]. exfalso. destruct LE as [[(PA & _) _]|[(PE & _)|(PE & _)]].
    - cbn [app] in F. pose proof (Forall_inv F) as X. cbn beta in X. apply X.
      destruct PA as [PA|(q & Q & PA)]; [discriminate|].
      assert (Y : In c (lit " @(")).
      { destruct q as [|y q]; cbn [app] in PA.
        - destruct PA as [PA|[PA|PA]]; injection PA as -> _; cbn; tauto.
        - destruct PA as [PA|[PA|PA]]; injection PA as -> _; exact (Forall_inv Q). }
      destruct Y as [<-|[<-|[<-|[]]]]; cbn; tauto.
    - injection PE as -> ->. cbn [app] in F. pose proof (Forall_inv F) as X. cbn beta in X. apply X. cbn; tauto.
    - discriminate. }
  subst pre. cbn [app length count] in *.
  assert (C : close = []).
  { destruct CL as (_ & (_ & CC & CD) & _). destruct CD as [CD|(v & ->)]; [exact CD|]. cbn in CC. lia. }
  subst close. cbn [app length] in *.
  assert (R : rest = []).
  { destruct CT as (w & u & _ & _ & _ & [R|(c & r & -> & SEPC & _)]); [exact R|]. exfalso.
    apply Forall_app in F as [_ F]. pose proof (Forall_inv F) as X. cbn beta in X. apply X. destruct SEPC as [-> | ->]; cbn; tauto. }
  subst rest. rewrite !app_nil_r in *. inversion S2 as [|f2 o2 sep2 pre2 text2 close2 rest2 l2 SEP2]; [reflexivity|].
  exfalso. destruct sep2; [|discriminate]. destruct SEP2 as [X|[X|[[X _]|[X _]]]]; discriminate.
Qed.
Print Assumptions commands_whole.

(** rem takes the rest of the line. *)
Theorem rem_takes_all lookup enhanced r e m d q :
  In r (lit "rR") -> In e (lit "eE") -> In m (lit "mM") -> In d (lit "(=+[]\;:,./ " ++ [TAB]) ->
  (forall w, ~ macro_first lookup (r :: e :: m :: d :: q) w) ->
  commands lookup enhanced (r :: e :: m :: d :: q) = Some [(0, length (r :: e :: m :: d :: q))].
Proof.
  intros R E M D NM. set (line := r :: e :: m :: d :: q).
  assert (NA : is_alias_word lookup line = false).
  { destruct (is_alias_word lookup line) eqn:A; [|reflexivity]. apply alias_macro in A. exfalso. exact (NM _ A). }
  assert (ST : command_start lookup enhanced ([], line) = (([], line), 0)).
  { unfold command_start. cbn [fst snd]. unfold skip_parens.
    assert (SK : ceq r "(" = false /\ skip_loop line line 0 = (line, 0)) by (destruct R as [<-|[<-|[]]]; split; reflexivity).
    destruct SK as [SK1 SK2]. unfold line at 1. rewrite SK1, andb_false_r, andb_false_l. rewrite SK2.
    unfold advance_to. cbn [snd]. rewrite Nat.sub_diag. reflexivity. }
  assert (SC : command_scan lookup ([], line) = Some (rev q ++ [d; m; e; r], [])).
  { unfold command_scan, alias_len. cbn [snd]. rewrite NA. cbn [Nat.eqb]. unfold line. cbn [length].
    destruct R as [<-|[<-|[]]], E as [<-|[<-|[]]], M as [<-|[<-|[]]];
      repeat (destruct D as [<-|D]; [reflexivity|]); destruct D. }
  unfold commands. cbn [commands_from snd]. unfold line at 1. fold line. unfold command_next. rewrite ST, SC.
  cbn [fst snd length]. rewrite app_length, rev_length. cbn [length].
  rewrite Nat.sub_0_r. replace (firstn (length q + 4) line) with line
    by (symmetry; apply firstn_all2; unfold line; cbn [length]; lia).
  unfold trim_trailing_parens.
  replace (trim_loop (rev line) 0 (length line)) with (length line); [reflexivity|].
  destruct (rev line) as [|y l]; reflexivity.
Qed.
Print Assumptions rem_takes_all.

(** The words of a line: always ends; the words are in order and do not overlap, between them are only delimiters and
    redirections, and each is delimited as [word_text] says. *)
Theorem words_cover beyond at_beginning line :
  exists xs, words beyond at_beginning line = Some xs /\ words_of 0 line xs.
Proof.
  destruct (words_ok beyond (S (length line)) [] [] line (word_start at_beginning)) as (xs & E & W);
    [lia|constructor|discriminate|reflexivity|]. exists xs. auto.
Qed.
Print Assumptions words_cover.

(** ** Examples *)
Definition no_macros (n : bytes) : option bytes := None.
Definition macro_ls (n : bytes) : option bytes := if eqb_bytes n (lit "ls") then Some (lit "dir $*") else None.
Definition cut (line : bytes) (o : option (list (nat * nat))) : option (list bytes) :=
  option_map (map (fun '(a, n) => firstn n (skipn a line))) o.
Definition cutw (line : bytes) (o : option (list (nat * nat * bool))) : option (list (bytes * bool)) :=
  option_map (map (fun '(a, n, r) => (firstn n (skipn a line), r))) o.

Example commands_ex : ascii_names macro_ls /\
  let line := lit "foo ""a&b""^&c&&bar|(baz 2>&1 x)& qux" in
  cut line (commands macro_ls true line) = Some [lit "foo ""a&b""^&c"; lit "bar"; lit "baz 2>&1 x"; lit "qux"].
Proof.
  split; [|vm_compute; reflexivity]. intros n t H. unfold macro_ls in H. destruct (eqb_bytes n (lit "ls")) eqn:E; [|discriminate].
  apply eqb_bytes_eq in E. subst n. repeat (apply Forall_cons; [vm_compute; reflexivity|]). constructor.
Qed.
Example rem_ex : let line := lit "ReM a & b | c" in commands no_macros true line = Some [(0, 13)].
Proof. vm_compute. reflexivity. Qed.
Example words_ex : let line := lit "dir/s ""a b"" c^ d >x^ y 2>&1 e" in
  cutw line (words NUL true line) =
  Some [(lit "dir", false); (lit "/s", false); (lit """a b""", false); (lit "c", false); (lit "d", false); (lit "x^ y", true); (lit "e", false)].
Proof. vm_compute. reflexivity. Qed.

(** ** Refuted *)

(** The names must be ASCII: a name is skipped by as many characters as it has bytes, and with them a separator. *)
Definition E_ACUTE : bytes := [ascii_of_N 195; ascii_of_N 169].
Definition macro_ee (n : bytes) : option bytes := if eqb_bytes n (E_ACUTE ++ E_ACUTE) then Some (lit "x") else None.
Theorem non_ascii_names_refuted :
  ~ forall lookup line xs, commands lookup true line = Some xs -> split_into lookup true 0 line xs.
Proof.
  intros H. specialize (H macro_ee (E_ACUTE ++ E_ACUTE ++ lit " &xy") [(0, 8)] eq_refl).
  inversion H as [|first o sep pre text close rest l SEP LE CL CT S2 EF EO EL EX]. subst.
  cbn [separator] in SEP. subst sep. cbn [app length plus] in *.
  destruct pre as [|p pre]; [|discriminate].
  cbn [app length plus] in *.
  assert (LT : length text = 8) by congruence.
  assert (TC : text = E_ACUTE ++ E_ACUTE ++ lit " &xy" /\ close = [] /\ rest = []).
  { assert (LL : length (text ++ close ++ rest) = 8) by (rewrite EL; reflexivity). rewrite !app_length, LT in LL.
    destruct close; [|cbn [length] in LL; lia]. destruct rest; [|cbn [length] in LL; lia]. rewrite !app_nil_r in EL. auto. }
  destruct TC as (-> & -> & ->). destruct CT as (w & u & TU & MF & OC & _). rewrite !app_nil_r in *.
  assert (MM : macro_first macro_ee (E_ACUTE ++ E_ACUTE ++ lit " &xy") (E_ACUTE ++ E_ACUTE)).
  { apply (alias_macro macro_ee (E_ACUTE ++ E_ACUTE ++ lit " &xy")). vm_compute. reflexivity. }
  assert (W : w = E_ACUTE ++ E_ACUTE).
  { destruct MF as [MF|[_ MF]]; [|exfalso; exact (MF _ MM)]. apply macro_word in MF. rewrite MF. vm_compute. reflexivity. }
  subst w. assert (U : u = lit " &xy") by (rewrite <- app_assoc in TU; apply app_inv_head, app_inv_head in TU; auto). subst u.
  specialize (OC [SPC] AMP (lit "xy") eq_refl (or_introl eq_refl) eq_refl). destruct OC as [[OC _]|[[_ OC]|OC]].
  - discriminate.
  - destruct OC as (a & d & s & _ & _ & [OC|OC]); destruct a as [|y [|z a]]; discriminate.
  - destruct OC as [[OC|[]]|(p & r & e & m & d & q & OC & _)]; [discriminate|]. destruct p as [|y p]; [discriminate|].
    injection OC as _ OC. destruct p; discriminate.
Qed.
Print Assumptions non_ascii_names_refuted.

(** A character behind ^ is not looked at when looking for rem: a command that does not contain rem is taken for it, and
    an & does not end it. *)
Theorem caret_is_rem_refuted :
  ~ forall line a b, line = a ++ AMP :: b -> place_after a = Plain -> has_text a -> ~ behind_redirection a ->
      (forall p q, line <> p ++ lit "rem" ++ q) -> commands no_macros true line <> Some [(0, length line)].
Proof.
  intros H. apply (H (lit "r^xem a & b") (lit "r^xem a ") (lit " b")); try reflexivity.
  - exists [], "r"%char, (lit "^xem a "). split; [reflexivity|]. split; [reflexivity|]. split; [|split].
    + cbn. intros K. decompose [or] K; try discriminate; contradiction.
    + vm_compute. intros [K _]. apply K. reflexivity.
    + intros (x & s & h & K & _). destruct x; discriminate.
  - intros (x & s & h & K & S & HH). apply (f_equal (@rev byte)) in K. rewrite rev_app_distr in K. cbn in K.
    destruct HH as [->|[->|(d & _ & ->)]]; cbn in K; injection K; intros; subst; try discriminate; destruct S; discriminate.
  - intros p q K. do 12 (destruct p as [|? p]; [discriminate|injection K as _ K || discriminate K]).
Qed.
Print Assumptions caret_is_rem_refuted.

(** Whether an & behind a redirection's argument ends the command depends on that argument having one character. *)
Theorem redirected_name_refuted :
  ~ forall n m, n <> [] -> m <> [] -> Forall (fun c => In c (lit "xyz")) (n ++ m) ->
      option_map (@length _) (commands no_macros true (">"%char :: n ++ lit "&foo")) =
      option_map (@length _) (commands no_macros true (">"%char :: m ++ lit "&foo")).
Proof.
  intros H. specialize (H (lit "x") (lit "xy")). vm_compute in H. discriminate H; try discriminate.
  repeat (apply Forall_cons; [tauto|]). constructor.
Qed.
Print Assumptions redirected_name_refuted.
