(** C115: a dumped macro can be read back. *)
From Verif Require Import Base KnModel KnProperties KmModel.
Local Open Scope N_scope.

Definition ascii_text (m : list N) : Prop := Forall (fun c => 0 < c < 128) m.

Lemma unctrl_back : forall k, k < 32 -> k <> 27 -> let c := lower (UNCTRL k) in CTRL (upper c) = k /\ c <> 63 /\ c <> QUOTE /\ (c = BACKSLASH -> k = 28).
Proof.
  intros k K K1. cbv zeta.
  pose proof (below_all 32 (fun k => (k =? 27) || ((CTRL (upper (lower (UNCTRL k))) =? k) && negb (lower (UNCTRL k) =? 63) && negb (lower (UNCTRL k) =? QUOTE) && (negb (lower (UNCTRL k) =? BACKSLASH) || (k =? 28)))) ltac:(vm_compute; reflexivity) k K) as H.
  cbv beta in H. apply N.eqb_neq in K1. rewrite K1 in H. cbn [orb] in H. apply andb_prop in H. destruct H as [H H4]. apply andb_prop in H. destruct H as [H H3]. apply andb_prop in H. destruct H as [H1 H2].
  apply N.eqb_eq in H1. apply negb_true_iff, N.eqb_neq in H2, H3. repeat (split; [assumption|]). intros X. rewrite X in H4. cbn in H4. apply N.eqb_eq, H4.
Qed.
Lemma macro_key_shape : forall c, c < 128 -> (forall meta r, translate false meta (macro_key c ++ r) = out meta c ++ translate false false r) /\ closed (macro_key c).
Proof.
  intros c C. unfold macro_key. assert (M : (127 <? c) = false) by lia. rewrite M. cbv zeta.
  destruct (c =? ESC) eqn:E1; [apply N.eqb_eq in E1; subst c; split; [intros [|] r; reflexivity | intros r; split; reflexivity]|].
  destruct (c <? 32) eqn:E2.
  - destruct (unctrl_back c) as (A & B & D & E); [lia | apply N.eqb_neq, E1|]. set (d := lower (UNCTRL c)) in *. pose proof D as D'. apply N.eqb_neq in B, D. rewrite D, orb_false_r.
    destruct (d =? BACKSLASH) eqn:F.
    + apply N.eqb_eq in F. rewrite F. rewrite (E F). split; [intros [|] r; reflexivity | intros r; split; reflexivity].
    + split.
      * intros meta r. cbn [app translate dash drop1]. change (BACKSLASH =? BACKSLASH) with true. change ((67 =? 67) && (45 =? 45)) with true. cbn iota. rewrite F. unfold emit. rewrite B, A. unfold out. reflexivity.
      * apply (closed_app [BACKSLASH; 67; 45] [d]); [intros r; split; reflexivity | apply closed_plain; [apply N.eqb_neq, F | exact D']].
  - destruct (c =? RUBOUT) eqn:E3; [apply N.eqb_eq in E3; subst c; split; [intros [|] r; reflexivity | intros r; split; reflexivity]|].
    destruct ((c =? BACKSLASH) || (c =? QUOTE)) eqn:E4.
    + apply orb_prop in E4. destruct E4 as [E4 | E4]; apply N.eqb_eq in E4; subst c; (split; [intros [|] r; reflexivity | intros r; split; reflexivity]).
    + apply orb_false_elim in E4. destruct E4 as [E4 E5]. split; [intros meta r; cbn [app translate]; rewrite E4; reflexivity|].
      apply N.eqb_neq in E4, E5. apply (closed_plain c E4 E5).
Qed.
(** What reading a dumped byte back gives. *)
Definition back (b : N) : list N := if b <? 128 then [b] else [ESC; b - 128].
Lemma macro_byte : forall b, 0 < b < 256 -> (forall r, translate false false (macro_key b ++ r) = back b ++ translate false false r) /\ closed (macro_key b).
Proof.
  intros b B. unfold back. destruct (b <? 128) eqn:E.
  - destruct (macro_key_shape b) as [S1 S2]; [lia|]. split; [intros r; exact (S1 false r) | exact S2].
  - destruct (macro_key_shape (b - 128)) as [S1 S2]; [lia|].
    assert (U : UNMETA b = b - 128).
    { pose proof (below_all 256 (fun k => (k <? 128) || (UNMETA k =? k - 128)) ltac:(vm_compute; reflexivity) b ltac:(lia)) as X. cbv beta in X. rewrite E in X. apply N.eqb_eq, X. }
    assert (U' : UNMETA (b - 128) = b - 128).
    { pose proof (below_all 128 (fun k => UNMETA k =? k) ltac:(vm_compute; reflexivity) (b - 128) ltac:(lia)) as X. apply N.eqb_eq, X. }
    assert (Q : macro_key b = [BACKSLASH; 77; 45] ++ macro_key (b - 128)).
    { unfold macro_key. replace (127 <? b) with true by lia. replace (127 <? b - 128) with false by lia. cbv zeta. rewrite U.
      destruct (b - 128 =? ESC); [reflexivity|]. destruct (b - 128 <? 32); [reflexivity|]. destruct (b - 128 =? RUBOUT); reflexivity. }
    rewrite Q. split; [|apply closed_app; [intros r; split; reflexivity | exact S2]].
    intros r. transitivity (translate false true (macro_key (b - 128) ++ r)); [reflexivity|]. rewrite (S1 true r). unfold out. rewrite U'. reflexivity.
Qed.
Lemma macro_back : forall m, Forall (fun b => 0 < b < 256) m -> translate false false (macro_text m) = flat_map back m /\ closed (macro_text m).
Proof.
  induction m as [|c m IH]; intros H; [split; [reflexivity | intros r; split; reflexivity]|]. inversion H as [|c' m' H1 H2]; subst. destruct (IH H2) as [I1 I2].
  destruct (macro_byte c H1) as [S1 S2]. cbn [macro_text flat_map]. fold (macro_text m). split; [rewrite S1, I1; reflexivity | apply closed_app; assumption].
Qed.
Lemma skip_spaces : forall n s, skip_white (repeat 32 n ++ s) = skip_white s.
Proof. induction n as [|n IH]; intros s; [reflexivity|]. cbn [repeat app skip_white]. exact (IH s). Qed.
Definition ends (rest : list N) : Prop := rest = [] \/ exists c r, rest = c :: r /\ whitespace c = true.
Lemma macro_of_text : forall n l rest, closed l -> ends rest -> macro_of (repeat 32 n ++ 32 :: QUOTE :: l ++ QUOTE :: rest) = Some (translate false false l).
Proof.
  intros n l rest C E. unfold macro_of. rewrite skip_spaces. cbn [skip_white]. change (whitespace 32) with true. change (whitespace QUOTE) with false. cbn iota. change (QUOTE =? QUOTE) with true. cbn iota.
  destruct (C (QUOTE :: rest)) as [C1 _]. rewrite C1. cbn [skip_to_delim]. change (QUOTE =? BACKSLASH) with false. change (QUOTE =? QUOTE) with true. cbn iota.
  assert (T : take_black rest = []) by (destruct E as [-> | (c & r & -> & W)]; [reflexivity | cbn [take_black]; rewrite W; reflexivity]). rewrite T.
  replace (length (l ++ QUOTE :: rest) - length (QUOTE :: rest))%nat with (length l + 0)%nat by (rewrite app_length; lia). rewrite firstn_app_2. cbn [firstn]. rewrite app_nil_r.
  unfold strip_quote. rewrite rev_app_distr. cbn [rev app]. change (QUOTE =? QUOTE) with true. cbn iota. rewrite rev_involutive. reflexivity.
Qed.
(** C115: the line dumped for a macro binds the same keys; bytes from 128 on become Alt keys. *)
Theorem dumped_macro_means : forall ks m pad comment, nameable ks -> Forall (fun b => 0 < b < 256) m ->
  bound_macro (dump_line ks m pad comment) = Some (ks, flat_map (fun b => if b <? 128 then [b] else [ESC; b - 128]) m).
Proof.
  intros ks m pad comment K A. destruct (macro_back m A) as [M1 M2]. unfold dump_line.
  set (rest := match comment with Some (pad2, t) => repeat 32 pad2 ++ [32; 32; 35; 32] ++ t | None => [] end).
  assert (E : ends rest).
  { unfold rest, ends. destruct comment as [[n t]|]; [right | left; reflexivity]. destruct n as [|n]; cbn [repeat app]; eexists; eexists; split; reflexivity. }
  set (body := repeat 32 pad ++ 32 :: QUOTE :: macro_text m ++ QUOTE :: rest).
  assert (H : hd 0 body <> 61) by (unfold body; destruct pad; cbn; discriminate).
  unfold bound_macro. rewrite (raw_name_binds_partial ks body K H).
  destruct (name_inner ks K) as (l & N1 & N2 & _). rewrite N1. cbn [app drop1]. rewrite <- app_assoc. cbn [app].
  destruct (N2 (QUOTE :: 58 :: body)) as [X _]. rewrite X. cbn [skip_to_delim]. change (QUOTE =? BACKSLASH) with false. change (QUOTE =? QUOTE) with true. cbn iota. cbn [drop1 skip_to_sep].
  change (58 =? 58) with true. cbn [orb drop1]. unfold body. rewrite macro_of_text by assumption. rewrite M1. reflexivity.
Qed.
Print Assumptions dumped_macro_means.
(** C115: the line dumped for a macro of ASCII characters binds the same keys to the same macro. *)
Theorem dumped_macro_read_back_partial : forall ks m pad comment, nameable ks -> ascii_text m -> bound_macro (dump_line ks m pad comment) = Some (ks, m).
Proof.
  intros ks m pad comment K A. rewrite dumped_macro_means; [|exact K | revert A; apply Forall_impl; intros; lia]. do 2 f_equal.
  induction A as [|c m C A IH]; [reflexivity|]. cbn [flat_map]. replace (c <? 128) with true by lia. cbn [app]. f_equal. exact IH.
Qed.
Print Assumptions dumped_macro_read_back_partial.
(** A macro with other characters is dumped as one with Alt keys: reading the line back gives another macro. *)
Theorem dumped_macro_read_back_refuted : forall ks m pad comment, nameable ks -> Forall (fun b => 0 < b < 256) m -> ~ ascii_text m ->
  exists m', bound_macro (dump_line ks m pad comment) = Some (ks, m') /\ m' <> m.
Proof.
  intros ks m pad comment K B A. eexists. split; [apply dumped_macro_means; assumption|]. intros E. apply A. clear - B E.
  change (flat_map back m = m) in E.
  assert (L : forall l, Forall (fun b => 0 < b < 256) l -> (length l <= length (flat_map back l))%nat /\ (length l = length (flat_map back l) -> ascii_text l)).
  { induction l as [|b l IH]; intros H; [split; [apply le_n | constructor]|]. inversion H as [|b' l' H1 H2]; subst. destruct (IH H2) as [I1 I2]. cbn [flat_map length].
    rewrite app_length. destruct (b <? 128) eqn:Q.
    - assert (LB : length (back b) = 1%nat) by (unfold back; rewrite Q; reflexivity). rewrite LB. split; [lia|]. intros X. constructor; [lia | apply I2; lia].
    - assert (LB : length (back b) = 2%nat) by (unfold back; rewrite Q; reflexivity). rewrite LB. split; lia. }
  apply (proj2 (L m B)). rewrite E at 1. reflexivity.
Qed.
Print Assumptions dumped_macro_read_back_refuted.

Example some_dump : dump_line [24; 49] (map N_of_ascii (lit "echo ""x\y""") ++ [28; 13]) 7 (Some (20%nat, map N_of_ascii (lit "C-x,1"))) =
  map N_of_ascii (lit """\C-x1"":        ""echo \""x\\y\""\C-\\\C-m""                      # C-x,1").
Proof. vm_compute. reflexivity. Qed.
Example some_dump_meets : nameable [24; 49] /\ ascii_text (map N_of_ascii (lit "echo ""x\y""") ++ [28; 13]) /\ ~ ascii_text [195; 169] /\
  bound_macro (dump_line [24; 49] [195; 169] 7 None) = Some ([24; 49], [27; 67; 27; 41]).
Proof.
  split; [split; [repeat constructor; discriminate || reflexivity | intros k X; discriminate]|]. split; [vm_compute; repeat constructor|].
  split; [intros X; inversion X as [|? ? Y _]; subst; lia | vm_compute; reflexivity].
Qed.
