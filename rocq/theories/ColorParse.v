(** Proofs about colour texts: the words written, and reading words. *)
From Verif Require Import Base ColorModel ColorSpec ColorProofs.
Arguments dec : simpl never.
Arguments Z.div : simpl never. Arguments Z.modulo : simpl never. Arguments N.div : simpl never. Arguments N.modulo : simpl never.
Arguments Z.mul : simpl never.

Lemma hex_digit_ok n : (n < 16)%N -> hex_digit n <> SPC /\ hex_digit n <> "t"%char /\ parsehexdigit (hex_digit n) = Z.of_N n.
Proof.
  intro H. assert (E : n = N.of_nat (N.to_nat n)) by lia. assert (L : N.to_nat n < 16) by lia.
  rewrite E. generalize dependent (N.to_nat n). clear. intros k _ L.
  do 16 (destruct k as [|k]; [split; [discriminate|split; [discriminate|reflexivity]]|]). lia.
Qed.

(** ** What is written *)
Lemma col_words_end c : valid_col c -> c <> Dflt -> exists w x, text (col_words c) = w ++ [x; SPC] /\ x <> SPC /\ x <> "t"%char.
Proof.
  intros V ND. destruct c as [|b i|r g b]; [congruence| |].
  - cbn in V. exists (if b then lit "bright " ++ removelast (colour_word i) else removelast (colour_word i)), (last (colour_word i) SPC).
    do 8 (destruct i as [|i]; [destruct b; split; try reflexivity; split; discriminate|]). lia.
  - destruct V as (V1 & V2 & V3).
    exists ("#"%char :: hex_byte r ++ hex_byte g ++ [hex_digit (b / 16)]), (hex_digit (b mod 16)).
    split; [reflexivity|]. destruct (hex_digit_ok (b mod 16)) as (A & B & _); [lia|]. auto.
Qed.

Lemma no_strip w x suf : x <> "t"%char -> strip_if_ends_with (w ++ [x; SPC]) (suf ++ lit "t ") = None.
Proof.
  intro N. unfold strip_if_ends_with. rewrite !rev_app_distr. cbn [rev app lit list_ascii_of_string prefixb].
  change (Ascii.eqb " " SPC) with true. cbn [andb].
  destruct (Ascii.eqb_spec "t" x); [congruence|]. cbn [andb]. rewrite andb_false_r. reflexivity.
Qed.
Lemma trim_end w x : x <> SPC -> trim_blanks (w ++ [x; SPC]) = w ++ [x].
Proof.
  intro N. unfold trim_blanks. rewrite rev_app_distr. cbn [rev app drop_blanks]. rewrite Ascii.eqb_refl.
  destruct (Ascii.eqb_spec x SPC); [congruence|]. cbn [rev]. rewrite rev_involutive. reflexivity.
Qed.

Lemma strip_last ts w x : ts <> [] -> text ts = w ++ [x; SPC] -> x <> SPC -> x <> "t"%char ->
  trim_blanks (f_strip (text ts)) = join [SPC] ts.
Proof.
  intros NE E N1 N2.
  assert (J : join [SPC] ts = w ++ [x]).
  { rewrite text_join in E by auto. change [x; SPC] with ([x] ++ [SPC]) in E. rewrite app_assoc in E. apply app_inj_tail in E. tauto. }
  rewrite J, E. unfold f_strip.
  assert (D : eqb_bytes (w ++ [x; SPC]) (lit "default on default ") = false).
  { apply eqb_bytes_neq. intro H. change (lit "default on default ") with (lit "default on defaul" ++ ["t"%char; SPC]) in H.
    assert (H2 : rev (w ++ [x; SPC]) = rev (lit "default on defaul" ++ ["t"%char; SPC])) by congruence.
    rewrite !rev_app_distr in H2. cbn [rev app] in H2. congruence. }
  rewrite D. rewrite orb_false_r.
  change (lit "default on default ") with (lit "default on defaul" ++ lit "t "). change (lit "on default ") with (lit "on defaul" ++ lit "t ").
  rewrite !no_strip by auto. destruct w; cbn [app]; [change [x; SPC] with ([] ++ [x; SPC])|change (a :: w ++ [x; SPC]) with ((a :: w) ++ [x; SPC])];
    apply trim_end; auto.
Qed.

Lemma strip_default ts w x : text ts = w ++ [x; SPC] -> x <> SPC -> x <> "t"%char ->
  trim_blanks (f_strip (text ts ++ lit "on default ")) = join [SPC] ts.
Proof.
  intros E N1 N2. assert (NE : ts <> []) by (intros ->; cbn in E; destruct w; discriminate).
  assert (J : join [SPC] ts = w ++ [x]).
  { rewrite text_join in E by auto. change [x; SPC] with ([x] ++ [SPC]) in E. rewrite app_assoc in E. apply app_inj_tail in E. tauto. }
  rewrite J, E. unfold f_strip.
  assert (D : eqb_bytes ((w ++ [x; SPC]) ++ lit "on default ") (lit "default on default ") = false).
  { apply eqb_bytes_neq. intro H. change (lit "default on default ") with (lit "default " ++ lit "on default ") in H.
    apply app_inv_tail in H. change (lit "default ") with (lit "defaul" ++ ["t"%char; SPC]) in H.
    assert (H2 : rev (w ++ [x; SPC]) = rev (lit "defaul" ++ ["t"%char; SPC])) by congruence.
    rewrite !rev_app_distr in H2. cbn [rev app] in H2. congruence. }
  rewrite D. rewrite orb_false_r.
  replace (match (w ++ [x; SPC]) ++ lit "on default " with [] => true | _ => false end) with false
    by (destruct w; reflexivity).
  assert (S1 : strip_if_ends_with ((w ++ [x; SPC]) ++ lit "on default ") (lit "default on default ") = None).
  { unfold strip_if_ends_with.
    destruct (prefixb (rev (lit "default on default ")) (rev ((w ++ [x; SPC]) ++ lit "on default "))) eqn:E1; [|rewrite andb_false_r; reflexivity].
    exfalso. apply prefixb_iff in E1 as [r E1]. rewrite (rev_app_distr (w ++ [x; SPC])), (rev_app_distr w) in E1.
    cbn in E1. congruence. }
  rewrite S1.
  assert (S2 : strip_if_ends_with ((w ++ [x; SPC]) ++ lit "on default ") (lit "on default ") = Some (w ++ [x; SPC])).
  { unfold strip_if_ends_with. rewrite rev_app_distr, prefixb_app, app_length.
    replace (Nat.ltb (length (lit "on default ")) (length (w ++ [x; SPC]) + length (lit "on default "))) with true
      by (symmetry; apply Nat.ltb_lt; rewrite app_length; cbn [length]; lia).
    cbn [andb]. f_equal. apply firstn_app_exact. lia. }
  rewrite S2. apply trim_end; auto.
Qed.

Definition noattr (a : attrs) : bool :=
  negb (a_rev a) && (match a_bold a with None => true | _ => false end) && negb (a_ital a) && negb (a_und a).
Definition with_cols (a : attrs) (f b : option col) : attrs := mka (a_rev a) (a_bold a) (a_ital a) (a_und a) f b.
(** What the written words say. *)
Definition canon (a : attrs) : attrs :=
  match a_fg a, a_bg a with
  | None, None => if noattr a then with_cols a (Some Dflt) None else a
  | None, Some Dflt => if noattr a then a else with_cols a None None
  | None, Some c => with_cols a (Some Dflt) (Some c)
  | Some Dflt, Some Dflt => if noattr a then with_cols a (Some Dflt) None else with_cols a None None
  | Some c, Some Dflt => with_cols a (Some c) None
  | _, _ => a
  end.

Lemma opt_col_words_end c : valid_col c -> c <> Dflt -> forall ts, exists w x, text (ts ++ col_words c) = w ++ [x; SPC] /\ x <> SPC /\ x <> "t"%char.
Proof.
  intros V N ts. destruct (col_words_end c V N) as (w & x & E & H). exists (text ts ++ w), x.
  rewrite text_app, E, app_assoc. auto.
Qed.

Definition pre (a : attrs) : list bytes :=
  (if a_rev a then [lit "reverse"] else []) ++ opt (a_bold a) (fun b => [if b then lit "bold" else lit "nobold"]) ++
  (if a_ital a then [lit "italic"] else []) ++ (if a_und a then [lit "underline"] else []).
Lemma words_pre a : words a = pre a ++ opt (a_fg a) col_words ++ opt (a_bg a) (fun c => lit "on" :: col_words c).
Proof. unfold words, pre. rewrite <- !app_assoc. reflexivity. Qed.
Lemma toks_pre a : toks false (els a) = pre a ++ opt (a_fg a) col_words ++
  opt (a_bg a) (fun c => match c with
                         | Dflt => [lit "on"; lit "default"]
                         | _ => (match a_fg a with None => [lit "default"] | _ => [] end) ++ lit "on" :: col_words c end).
Proof.
  destruct a as [[] [[]|] [] [] [f|] [[| |]|]]; unfold els, pre; cbn -[lit col_words]; rewrite ?app_nil_r; reflexivity.
Qed.

Lemma written a : valid a -> trim_blanks (f_strip (text (toks false (els a)))) = join [SPC] (words (canon a)).
Proof.
  intros [V1 V2]. rewrite toks_pre.
  destruct (a_bg a) as [b|] eqn:EB.
  - assert (Vb := V2 _ eq_refl). assert (DB : b = Dflt \/ b <> Dflt) by (destruct b; auto; right; discriminate).
    destruct DB as [->|NB].
    + destruct (a_fg a) as [f|] eqn:EF.
      * assert (Vf := V1 _ eq_refl). assert (DF : f = Dflt \/ f <> Dflt) by (destruct f; auto; right; discriminate).
        destruct DF as [->|NF].
        -- destruct a as [[] [[]|] [] [] f0 b0]; cbn in EB, EF; subst; vm_compute; reflexivity.
        -- destruct (opt_col_words_end f Vf NF (pre a)) as (w & x & E & N1 & N2).
           cbn [opt]. rewrite app_assoc, text_app. change (text [lit "on"; lit "default"]) with (lit "on default ").
           rewrite (strip_default _ w x); auto. f_equal. rewrite words_pre. unfold canon. rewrite EF, EB.
           destruct f; [congruence| |]; cbn [opt with_cols a_fg a_bg]; rewrite app_nil_r; reflexivity.
      * destruct a as [[] [[]|] [] [] f0 b0]; cbn in EB, EF; subst; vm_compute; reflexivity.
    + assert (EQ : pre a ++ opt (a_fg a) col_words ++ opt (Some b) (fun c => match c with
                         | Dflt => [lit "on"; lit "default"]
                         | _ => (match a_fg a with None => [lit "default"] | _ => [] end) ++ lit "on" :: col_words c end)
                   = words (canon a)).
      { rewrite words_pre. unfold canon. rewrite EB. destruct (a_fg a) as [[| |]|] eqn:EF; destruct b; try congruence; cbn; rewrite ?EB, ?EF; reflexivity. }
      rewrite EQ. rewrite words_pre. destruct (opt_col_words_end b Vb NB (pre (canon a) ++ opt (a_fg (canon a)) col_words ++ [lit "on"])) as (w & x & E & N1 & N2).
      assert (CB : a_bg (canon a) = Some b).
      { unfold canon. rewrite EB. destruct (a_fg a) as [[| |]|]; destruct b; try congruence; cbn; auto. }
      rewrite CB. cbn [opt]. apply (strip_last _ w x); auto.
      * intro H. apply app_eq_nil in H as [_ H]. apply app_eq_nil in H as [_ H]. discriminate.
      * rewrite <- E. f_equal. rewrite <- !app_assoc. reflexivity.
  - destruct (a_fg a) as [f|] eqn:EF.
    + assert (Vf := V1 _ eq_refl). assert (DF : f = Dflt \/ f <> Dflt) by (destruct f; auto; right; discriminate).
      destruct DF as [->|NF].
      * destruct a as [[] [[]|] [] [] f0 b0]; cbn in EB, EF; subst; vm_compute; reflexivity.
      * destruct (opt_col_words_end f Vf NF (pre a)) as (w & x & E & N1 & N2).
        cbn [opt]. rewrite app_nil_r. rewrite (strip_last _ w x); auto.
        -- f_equal. rewrite words_pre. unfold canon. rewrite EF, EB. destruct f; [congruence| |]; rewrite EF, EB; cbn [opt]; rewrite app_nil_r; reflexivity.
        -- intros H. apply app_eq_nil in H as [_ H]. destruct f as [|[]|]; discriminate.
    + destruct a as [[] [[]|] [] [] f0 b0]; cbn in EB, EF; subst; vm_compute; reflexivity.
Qed.

Lemma canon_valid a : valid a -> valid (canon a).
Proof.
  intros [V1 V2]. destruct a as [r o i u f b]; cbn in *. unfold canon; cbn.
  destruct f as [[| |]|], b as [[| |]|]; cbn;
  try (destruct (noattr _)); (split; cbn; intros c E; try discriminate; injection E as <-; try exact Logic.I; auto).
Qed.

Definition dropd (o : option col) : option col := match o with Some Dflt => None | x => x end.
Definition plainify (a : attrs) : attrs := with_cols a (dropd (a_fg a)) (dropd (a_bg a)).
Lemma canon_plainify a : plainify (canon a) = plainify a.
Proof. destruct a as [r o i u [[| |]|] [[| |]|]]; unfold canon; cbn; try (destruct (noattr _)); reflexivity. Qed.
Lemma plainify_plain a : plain a -> plainify a = a.
Proof. destruct a as [r o i u [[| |]|] [[| |]|]]; intros [A B]; cbn in *; try congruence; reflexivity. Qed.
Lemma canon_words a : words (canon a) <> [].
Proof.
  rewrite words_pre. destruct a as [[] [[]|] [] [] [[|[]|]|] [[|[]|]|]]; unfold canon; cbn; discriminate.
Qed.

Lemma col_words_good c : valid_col c -> Forall (no SPC) (col_words c).
Proof.
  intro V. destruct c as [|b i|r g b]; cbn in V.
  - apply Forall_cons; [split; [discriminate|reflexivity]|apply Forall_nil].
  - do 8 (destruct i as [|i]; [destruct b; repeat (apply Forall_cons; [split; [discriminate|reflexivity]|]); apply Forall_nil|]). lia.
  - destruct V as (V1 & V2 & V3). apply Forall_cons; [|apply Forall_nil]. split; [discriminate|].
    assert (H : forall n, (n < 16)%N -> negb (Ascii.eqb (hex_digit n) SPC) = true).
    { intros n L. destruct (hex_digit_ok n L) as (A & _). destruct (Ascii.eqb_spec (hex_digit n) SPC); [congruence|reflexivity]. }
    cbn -[hex_digit]. rewrite !H by lia. reflexivity.
Qed.
Lemma words_good a : valid a -> Forall (no SPC) (words a).
Proof.
  intros [V1 V2]. rewrite words_pre. apply Forall_app. split.
  - destruct a as [[] [[]|] [] [] f b]; cbn; repeat (apply Forall_cons; [split; [discriminate|reflexivity]|]); apply Forall_nil.
  - apply Forall_app. split.
    + destruct (a_fg a); cbn; [apply col_words_good; auto|apply Forall_nil].
    + destruct (a_bg a); cbn; [apply Forall_cons; [split; [discriminate|reflexivity]|apply col_words_good; auto]|apply Forall_nil].
Qed.

(** ** Reading the words *)
Lemma p_run_app p a b : p_run p (a ++ b) = match p_run p a with None => None | Some q => p_run q b end.
Proof. revert p; induction a as [|t a IH]; intro p; cbn; auto. destruct (p_step p t); auto. Qed.

Definition bold_z (o : option bool) : Z := match o with Some true => 1 | Some false => 0 | None => -1 end.
Definition und_z (u : bool) : Z := if u then 1 else -1.
Definition pre_state (a : attrs) : pstate := mkp (-1) (-1) false false (bold_z (a_bold a)) (-1) (und_z (a_und a)) (a_ital a) (a_rev a) false false.
Lemma run_pre a : p_run p_init (pre a) = Some (pre_state a).
Proof. destruct a as [[] [[]|] [] [] f b]; reflexivity. Qed.

Definition col_z (c : col) : Z :=
  match c with Dflt => -1 | Named _ i => Z.of_nat i | Rgb r g b => (Z.of_N r * 65536 + Z.of_N g * 256 + Z.of_N b) end%Z.
Definition col_hex (c : col) : bool := match c with Rgb _ _ _ => true | _ => false end.
Definition col_bright (c : col) : Z := match c with Named true _ => 1 | _ => -1 end%Z.
Definition col_dflt (c : col) : bool := match c with Dflt => true | _ => false end.

Lemma parsehex_rgb r g b : (r < 256)%N -> (g < 256)%N -> (b < 256)%N ->
  parsehex (lit "#" ++ hex_byte r ++ hex_byte g ++ hex_byte b) = (Z.of_N r * 65536 + Z.of_N g * 256 + Z.of_N b)%Z.
Proof.
  intros R G B.
  assert (H : forall n, (n < 16)%N -> parsehexdigit (hex_digit n) = Z.of_N n) by (intros n L; apply hex_digit_ok; auto).
  unfold parsehex, hex_byte. cbn [lit list_ascii_of_string app length Nat.eqb]. change (Ascii.eqb "#" "#") with true. cbn [andb orb].
  cbn [parsehex_loop]. rewrite !H by lia. cbv zeta.
  repeat match goal with |- context [(Z.of_N ?x <? 0)%Z] => replace (Z.of_N x <? 0)%Z with false by lia end.
  lia.
Qed.

Lemma run_fg c R I U B : valid_col c ->
  p_run (mkp (-1) (-1) false false B (-1) U I R false false) (col_words c) =
  Some (mkp (col_z c) (-1) (col_hex c) false B (col_bright c) U I R false (col_dflt c)).
Proof.
  intro V. destruct c as [|b i|r g b]; cbn in V.
  - reflexivity.
  - do 8 (destruct i as [|i]; [destruct b; reflexivity|]). lia.
  - destruct V as (V1 & V2 & V3). cbn [col_words p_run]. unfold p_step.
    rewrite parsehex_rgb by lia. cbn -[Z.leb Z.of_N Z.add].
    replace (0 <=? Z.of_N r * 65536 + Z.of_N g * 256 + Z.of_N b)%Z with true by lia. reflexivity.
Qed.
Lemma run_bg c fg fh R I U B : valid_col c ->
  p_run (mkp fg (-1) fh false B (-1) U I R true false) (col_words c) =
  Some (mkp fg (col_z c) fh (col_hex c) B (col_bright c) U I R true (col_dflt c)).
Proof.
  intro V. destruct c as [|b i|r g b]; cbn in V.
  - reflexivity.
  - do 8 (destruct i as [|i]; [destruct b; reflexivity|]). lia.
  - destruct V as (V1 & V2 & V3). cbn [col_words p_run]. unfold p_step.
    rewrite parsehex_rgb by lia. cbn -[Z.leb Z.of_N Z.add].
    replace (0 <=? Z.of_N r * 65536 + Z.of_N g * 256 + Z.of_N b)%Z with true by lia. reflexivity.
Qed.

Definition semis (ns : list N) : bytes := concat (map (fun n => lit ";" ++ dec n) ns).
Lemma semis_app a b : semis (a ++ b) = semis a ++ semis b.
Proof. unfold semis. rewrite map_app, concat_app. reflexivity. Qed.
Lemma join_semis n ns : join (lit ";") (map dec (n :: ns)) = dec n ++ semis ns.
Proof.
  revert n; induction ns as [|m ns IH]; intro n; [cbn; rewrite app_nil_r; reflexivity|].
  change (join (lit ";") (map dec (n :: m :: ns))) with (dec n ++ lit ";" ++ join (lit ";") (map dec (m :: ns))).
  rewrite IH. unfold semis. cbn [map concat]. rewrite <- !app_assoc. reflexivity.
Qed.

(** The colour value with "bright" counted in. *)
Definition col_v (c : option col) : Z :=
  match c with Some (Named true i) => Z.of_nat i + 8 | Some c => col_z c | None => -1 end%Z.
Definition col_h (c : option col) : bool := match c with Some c => col_hex c | None => false end.
Lemma color_code_eq base c : (base = 30 \/ base = 40)%N -> (forall x, c = Some x -> valid_col x) ->
  color_code (Z.of_N base) (col_v c) (col_h c) = semis (opt (dropd c) (col_numbers base)).
Proof.
  intros B V. destruct c as [c|]; [|reflexivity]. specialize (V c eq_refl).
  destruct c as [|b i|r g bl]; cbn in V.
  - reflexivity.
  - unfold color_code, col_v, col_h, col_hex. cbn [opt dropd col_numbers]. unfold semis. cbn [map concat]. rewrite app_nil_r.
    destruct b; cbn [col_z].
    + replace (0 <=? Z.of_nat i + 8)%Z with true by lia. replace (8 <=? Z.of_nat i + 8)%Z with true by lia.
      do 2 f_equal. lia.
    + replace (0 <=? Z.of_nat i)%Z with true by lia. replace (8 <=? Z.of_nat i)%Z with false by lia.
      do 2 f_equal. lia.
  - unfold color_code, col_v, col_h, col_hex, col_z. destruct V as (V1 & V2 & V3).
    set (v := (Z.of_N r * 65536 + Z.of_N g * 256 + Z.of_N bl)%Z).
    replace (0 <=? v)%Z with true by lia.
    replace (v / 256 / 256)%Z with (Z.of_N r) by lia. replace ((v / 256) mod 256)%Z with (Z.of_N g) by lia.
    replace (v mod 256)%Z with (Z.of_N bl) by lia. rewrite !N2Z.id.
    replace (Z.to_N (Z.of_N base + 8)) with (base + 8)%N by lia.
    cbn [opt dropd col_numbers]. unfold semis. cbn [map concat]. rewrite app_nil_r.
    change (dec 2) with (lit "2"). rewrite <- !app_assoc. reflexivity.
Qed.

Lemma code_semis a : code a = lit "0" ++ (if a_rev a then lit ";7" else []) ++ opt (a_bold a) (fun b => if b then lit ";1" else lit ";22") ++
  (if a_ital a then lit ";3" else []) ++ (if a_und a then lit ";4" else []) ++
  semis (opt (a_fg a) (col_numbers 30)) ++ semis (opt (a_bg a) (col_numbers 40)).
Proof.
  unfold code, numbers. rewrite join_semis, !semis_app. change (dec 0) with (lit "0").
  destruct (a_rev a), (a_bold a) as [[]|], (a_ital a), (a_und a); reflexivity.
Qed.

Lemma code_of_state fg bg fh bh a on sd :
  p_code (mkp fg bg fh bh (bold_z (a_bold a)) (-1) (und_z (a_und a)) (a_ital a) (a_rev a) on sd) =
  lit "0" ++ (if a_rev a then lit ";7" else []) ++ opt (a_bold a) (fun b => if b then lit ";1" else lit ";22") ++
  (if a_ital a then lit ";3" else []) ++ (if a_und a then lit ";4" else []) ++ color_code 30 fg fh ++ color_code 40 bg bh.
Proof.
  unfold p_code. cbn [p_bright]. change (0 <? -1)%Z with false. rewrite andb_false_r. cbv iota.
  cbn [p_reverse p_bold p_italic p_underline p_fg p_bg p_fg_hex p_bg_hex].
  destruct (a_rev a), (a_bold a) as [[]|], (a_ital a), (a_und a); reflexivity.
Qed.
Lemma code_bright_fg c bg bh a sd : valid_col c -> 
  p_code (mkp (col_z c) bg (col_hex c) bh (bold_z (a_bold a)) (col_bright c) (und_z (a_und a)) (a_ital a) (a_rev a) false sd) =
  p_code (mkp (col_v (Some c)) bg (col_hex c) bh (bold_z (a_bold a)) (-1) (und_z (a_und a)) (a_ital a) (a_rev a) false sd).
Proof.
  intro V. destruct c as [|[] i|r g b]; try reflexivity. cbn [col_z col_hex col_bright col_v].
  unfold p_code, p_color, p_hex. cbn [p_on p_fg p_fg_hex p_bright negb]. change (0 <? 1)%Z with true. change (0 <? -1)%Z with false.
  replace (0 <=? Z.of_nat i)%Z with true by lia. rewrite andb_false_r. cbn [andb]. cbv iota. reflexivity.
Qed.
Lemma code_bright_bg c fg fh a sd : valid_col c -> 
  p_code (mkp fg (col_z c) fh (col_hex c) (bold_z (a_bold a)) (col_bright c) (und_z (a_und a)) (a_ital a) (a_rev a) true sd) =
  p_code (mkp fg (col_v (Some c)) fh (col_hex c) (bold_z (a_bold a)) (-1) (und_z (a_und a)) (a_ital a) (a_rev a) true sd).
Proof.
  intro V. destruct c as [|[] i|r g b]; try reflexivity. cbn [col_z col_hex col_bright col_v].
  unfold p_code, p_color, p_hex. cbn [p_on p_bg p_bg_hex p_bright negb]. change (0 <? 1)%Z with true. change (0 <? -1)%Z with false.
  replace (0 <=? Z.of_nat i)%Z with true by lia. rewrite andb_false_r. cbn [andb]. cbv iota. reflexivity.
Qed.

Lemma run_words a : valid a -> exists p, p_run p_init (words a) = Some p /\ p_code p = code (plainify a).
Proof.
  intros [V1 V2]. rewrite words_pre, p_run_app, run_pre. cbv iota. unfold pre_state. rewrite p_run_app.
  rewrite code_semis. cbn [plainify with_cols a_rev a_bold a_ital a_und a_fg a_bg].
  assert (P : exists fh sd br, p_run (mkp (-1) (-1) false false (bold_z (a_bold a)) (-1) (und_z (a_und a)) (a_ital a) (a_rev a) false false)
     (opt (a_fg a) col_words) = Some (mkp (match a_fg a with Some c => col_z c | None => -1 end) (-1) fh false
       (bold_z (a_bold a)) br (und_z (a_und a)) (a_ital a) (a_rev a) false sd) /\ fh = col_h (a_fg a) /\
       br = match a_fg a with Some c => col_bright c | None => (-1)%Z end).
  { destruct (a_fg a) as [c|]; cbn [opt].
    - rewrite run_fg by auto. eexists _, _, _. split; [reflexivity|]. split; reflexivity.
    - eexists _, _, _. split; [reflexivity|]. split; reflexivity. }
  destruct P as (fh & sd & br & P & Ef & Eb). rewrite P. clear P. cbv iota.
  rewrite <- (color_code_eq 30 (a_fg a)) by (auto; lia). rewrite <- (color_code_eq 40 (a_bg a)) by (auto; lia).
  change (Z.of_N 30) with 30%Z. change (Z.of_N 40) with 40%Z.
  destruct (a_bg a) as [c|]; cbn [opt].
  - assert (Vc := V2 _ eq_refl).
    assert (ON : p_step (mkp (match a_fg a with Some c0 => col_z c0 | None => -1 end) (-1) fh false
       (bold_z (a_bold a)) br (und_z (a_und a)) (a_ital a) (a_rev a) false sd) (lit "on")
       = Some (mkp (col_v (a_fg a)) (-1) fh false (bold_z (a_bold a)) (-1) (und_z (a_und a)) (a_ital a) (a_rev a) true false)).
    { subst. destruct (a_fg a) as [[|[] i|r g b]|]; reflexivity. }
    cbn [p_run]. rewrite ON, run_bg by auto. eexists. split; [reflexivity|].
    rewrite code_bright_bg by auto. rewrite code_of_state. subst fh. reflexivity.
  - eexists. split; [reflexivity|]. subst. destruct (a_fg a) as [c|].
    + change (col_h (Some c)) with (col_hex c). rewrite code_bright_fg by auto. rewrite code_of_state. reflexivity.
    + rewrite code_of_state. reflexivity.
Qed.

Lemma words_head a t r : valid a -> words a = t :: r -> iequal t (lit "ansi") || iequal t (lit "sgr") = false.
Proof.
  intros [V1 V2] E. rewrite words_pre in E.
  destruct a as [[] [[]|] [] [] f b]; cbn -[col_words] in *; try (injection E as <- _; reflexivity).
  assert (C : forall c x, valid_col c -> col_words c ++ x = t :: r -> iequal t (lit "ansi") || iequal t (lit "sgr") = false).
  { intros [|br i|r' g' b'] x V H; cbn in V.
    - injection H as <- _; reflexivity.
    - do 8 (destruct i as [|i]; [destruct br; injection H as <- _; reflexivity|]). lia.
    - injection H as <- _. reflexivity. }
  destruct f as [c|]; cbn -[col_words] in E.
  - eapply C; [|exact E]. auto.
  - destruct b as [c|]; cbn -[col_words] in E; [|discriminate]. injection E as <- _. reflexivity.
Qed.

Theorem parse_of_words a : valid a -> words a <> [] -> parse_color (join [SPC] (words a)) = Some (code (plainify a)).
Proof.
  intros V NE.
  assert (P : parse_color (join [SPC] (words a)) = parse_words (words a)).
  { unfold parse_color. rewrite pieces_join by (apply words_good; auto).
    destruct (join [SPC] (words a)) eqn:E; [|reflexivity].
    pose proof (words_good a V) as G. destruct (words a) as [|t r]; [congruence|].
    pose proof (Forall_inv G) as [G1 _]. destruct r; cbn in E; [|apply app_eq_nil in E as [E _]]; congruence. }
  rewrite P. destruct (run_words a V) as (p & R & C). destruct (words a) as [|t r] eqn:E; [congruence|].
  unfold parse_words. rewrite (words_head a t r V E). rewrite R. cbn. f_equal. exact C.
Qed.
