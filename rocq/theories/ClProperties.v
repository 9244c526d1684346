(** C83, C84: coloring rules mean what is documented; the color of a match is that of the first rule that applies. *)
From Verif Require Import Base ClSpec ClParse ClRules ClLoad.
Open Scope N_scope.

(** C83 *)
Theorem color_rules_mean : forall glob ro hid prefix rules e, Forall good_rule rules ->
  get_match_color glob (parse_match_colors ro hid prefix (write_rules rules)) e = match_color glob (defaults ro hid) rules e.
Proof. exact color_ok. Qed.
(** rules before an error stay in force *)
Definition not_equals (r : tk) : Prop := match r with Tok ret _ _ _ => ret <> 61 | Err => True end.
Lemma no_equals vb l : forall st tok q, ~ In 61 l -> not_equals (get_token 58 61 vb st l tok q).
Proof.
  induction l as [|c l IH]; intros st tok q Hn; [destruct st; cbn; try exact Logic.I; lia|]. assert (Hc : c <> 61) by (intros ->; apply Hn; left; reflexivity). assert (Hl : ~ In 61 l) by (intro X; apply Hn; right; exact X).
  cbn [get_token]. cbv zeta. destruct st as [| | |n v|n v|].
  all: repeat match goal with |- not_equals (if ?b then _ else _) => destruct b eqn:? | |- not_equals (match ?o with Some _ => _ | None => _ end) => destruct o end; try (apply IH; exact Hl); try exact Logic.I; cbn; lia.
Qed.
Lemma bad_stops f bad m pre : ~ In 61 bad -> rules_loop f bad m pre = (m, pre).
Proof.
  intro H. destruct f as [|f]; [reflexivity|]. cbn [rules_loop]. destruct bad as [|c bad]; [reflexivity|]. unfold get_token_and_value. pose proof (no_equals true (c :: bad) Text [] false H) as X. destruct (get_token 58 61 true Text (c :: bad) [] false) as [ret tok rest q|]; [|reflexivity]. cbn in X.
  destruct ret as [|p]; [reflexivity|]. do 6 (destruct p as [p|p|]; try reflexivity). destruct (X eq_refl).
Qed.
Lemma load_tail rules bad : forall f m pre, Forall good_rule rules -> ~ In 61 bad -> (length (write_rules rules) < f)%nat -> rules <> [] -> rules_loop f (write_rules rules ++ [58] ++ bad) m pre = (fold_left load1 rules m, pre).
Proof.
  induction rules as [|r rules IH]; intros f m pre Hg Hb Hf Hn; [destruct (Hn eq_refl)|]. inversion Hg as [|? ? G Hg']; subst. destruct f as [|f]; [lia|]. cbn [fold_left]. destruct rules as [|r2 rules].
  - cbn [write_rules]. rewrite (step_ok f r ([58] ++ bad) m pre G (or_intror (ex_intro _ _ eq_refl))). cbn [app tl fold_left]. apply bad_stops. exact Hb.
  - change (write_rules (r :: r2 :: rules)) with (write_rule r ++ [58] ++ write_rules (r2 :: rules)) in *. rewrite <- !app_assoc. rewrite (step_ok f r ([58] ++ write_rules (r2 :: rules) ++ [58] ++ bad) m pre G (or_intror (ex_intro _ _ eq_refl))). cbn [app tl]. apply IH; [exact Hg'|exact Hb| |discriminate]. rewrite !app_length in Hf. cbn [length] in Hf. lia.
Qed.
Theorem color_rules_before_error : forall glob ro hid prefix rules bad e, Forall good_rule rules -> rules <> [] -> ~ In 61 bad ->
  get_match_color glob (parse_match_colors ro hid prefix (write_rules rules ++ [58] ++ bad)) e = match_color glob (defaults ro hid) rules e.
Proof.
  intros glob ro hid prefix rules bad e Hg Hn Hb. rewrite <- (color_ok glob ro hid prefix rules e Hg). f_equal. unfold parse_match_colors. rewrite (load_ok rules _ _ None Hg (Nat.lt_succ_diag_r _)). rewrite load_tail; [reflexivity|exact Hg|exact Hb|rewrite app_length; lia|exact Hn].
Qed.

Definition same_name : text -> text -> bool := eqt.
Definition file (name : text) : entry := mkE Pathish false false (Is (Reg false)) name.
Definition red : text := [51; 49].
Definition color_of (ro hid : option text) (l : text) (e : entry) : option text := get_match_color same_name (parse_match_colors ro hid [] l) e.
(** a quoted string is a pattern: not if it is "not" *)
Theorem quoted_word_refuted : ~ (forall s, ~ In 34 s -> ~ In 0 s -> s <> [] -> color_of None None ([34] ++ s ++ [34; 61] ++ red) (file s) = Some red).
Proof. intro H. specialize (H [110; 111; 116]). specialize (H ltac:(cbn; intuition discriminate) ltac:(cbn; intuition discriminate) ltac:(discriminate)). vm_compute in H. discriminate H. Qed.
(** backslash and any other character is the character: not at the end of the conditions if it is a space, and not outside the basic plane *)
Theorem escaped_space_refuted : ~ (forall s, Forall (fun c => 97 <= c <= 122) s -> color_of None None (120 :: s ++ [92; 32; 61] ++ red) (file (120 :: s ++ [32])) = Some red).
Proof. intro H. specialize (H [] (Forall_nil _)). vm_compute in H. discriminate H. Qed.
Theorem escaped_char_refuted : ~ (forall c, 128 <= c < 55296 \/ 57344 <= c < 1114112 -> color_of None None ([120; 92; c; 61] ++ red) (file [120; c]) = Some red).
Proof. intro H. specialize (H 128512 ltac:(lia)). vm_compute in H. discriminate H. Qed.
(** \u: a character outside the basic plane written as two units *)
Theorem surrogates_refuted : ~ (color_of None None ([120; 92; 117; 100; 56; 51; 100; 92; 117; 100; 101; 48; 48; 61] ++ red) (file [120; 128512]) = Some red).
Proof. intro H. vm_compute in H. discriminate H. Qed.

(** C84: the types *)
(** mi: missing files; or: orphaned links; so: the prefix *)
Theorem missing_color_refuted : ~ (forall v name, v <> [] -> Forall (fun c => 48 <= c <= 57) v -> color_of None None ([109; 105; 61] ++ v) (mkE Zero false false NoStat name) = Some v).
Proof. intro H. specialize (H red [120] ltac:(discriminate)). specialize (H ltac:(repeat apply Forall_cons; try apply Forall_nil; cbv; split; discriminate)). vm_compute in H. discriminate H. Qed.
Theorem orphan_color_refuted : ~ (forall v name, v <> [] -> Forall (fun c => 48 <= c <= 57) v -> color_of None None ([111; 114; 61] ++ v) (mkE Pathish false false (Lnk None) name) = Some v).
Proof. intro H. specialize (H red [120] ltac:(discriminate)). specialize (H ltac:(repeat apply Forall_cons; try apply Forall_nil; cbv; split; discriminate)). vm_compute in H. discriminate H. Qed.
Theorem prefix_color_refuted : ~ (forall v prefix, v <> [] -> Forall (fun c => 48 <= c <= 57) v -> m_prefix (parse_match_colors None None prefix ([115; 111; 61] ++ v)) = v).
Proof. intro H. specialize (H red [] ltac:(discriminate)). specialize (H ltac:(repeat apply Forall_cons; try apply Forall_nil; cbv; split; discriminate)). vm_compute in H. discriminate H. Qed.
(** a rule with one type is evaluated last: so what it applies to has a color.  Not a hidden directory if there is a rule for di and none for hi *)
Theorem single_type_refuted : ~ (forall glob ro hid prefix rules e r i, Forall good_rule rules -> In r rules -> single (rule_of r) = Some i -> is_type (follows_links (type_color (defaults ro hid) rules Link)) e i = true ->
  get_match_color glob (parse_match_colors ro hid prefix (write_rules rules)) e <> None).
Proof.
  intro H. set (r := mkW [(O, [Ch 100; Ch 105])] O [Ch 57; Ch 51]). apply (H same_name None None [] [r] (mkE Pathish false true (Is Folder) [120]) r Dir); try reflexivity; [|left; reflexivity].
  apply Forall_cons; [|apply Forall_nil]. split; [discriminate|]. split; [apply Forall_cons; [|apply Forall_nil]; split; [repeat apply Forall_cons; try apply Forall_nil; cbv; intuition (try discriminate; try lia)|split; [discriminate|split; [discriminate|exact Logic.I]]]|]. split; [exact Logic.I|]. split; [repeat apply Forall_cons; try apply Forall_nil; cbv; intuition discriminate|]. split; [cbv; intuition discriminate|discriminate].
Qed.
(** no covers anything not covered by another type: not together with a pattern *)
Theorem normal_type_refuted : ~ (forall name, Forall (fun c => 97 <= c <= 122) name -> color_of None None ([110; 111; 32; 120] ++ name ++ [61] ++ red) (mkE Other false false (Is Odd) (120 :: name)) = Some red).
Proof. intro H. specialize (H [] (Forall_nil _)). vm_compute in H. discriminate H. Qed.

(** C84: what follows for users *)
(** the first rule that applies decides, whatever follows *)
Theorem first_rule_wins : forall glob ro hid prefix before r after e, Forall good_rule (before ++ r :: after) -> 
  let rules := before ++ r :: after in let target := follows_links (type_color (defaults ro hid) rules Link) in
  single (rule_of r) = None -> empty (rule_of r) = false -> holds glob target e (rule_of r) = true ->
  (forall q, In q before -> single (rule_of q) = None -> holds glob target e (rule_of q) = false \/ empty (rule_of q) = true) ->
  get_match_color glob (parse_match_colors ro hid prefix (write_rules rules)) e = Some (reading (w_color r)).
Proof.
  intros glob ro hid prefix before r after e Hg rules target H1 H2 H3 H4. unfold rules at 1. rewrite (color_ok glob ro hid prefix _ e Hg). unfold match_color. fold rules. fold target.
  replace (find (fun r0 => negb (empty (rule_of r0)) && match single (rule_of r0) with Some _ => false | None => true end && holds glob target e (rule_of r0)) rules) with (Some r); [reflexivity|]. symmetry. unfold rules. clearbody target. clear Hg rules. induction before as [|q before IH]; cbn [app find].
  - rewrite H1, H2, H3. reflexivity.
  - destruct (single (rule_of q)) as [i|] eqn:Es; [rewrite andb_false_r; apply IH; intros p Hp; exact (H4 p (or_intror Hp))|]. destruct (H4 q (or_introl eq_refl) Es) as [Hh|He]; [rewrite Hh, andb_false_r|rewrite He; cbn [negb andb]]; apply IH; intros p Hp; exact (H4 p (or_intror Hp)).
Qed.

(** examples *)
Definition ch (l : text) : list item := map Ch l.
(** di=94:di x.tmp=90:not di "a b"=\x33\x31:ro ex=1;32 *)
Definition rules1 : list wrule :=
  [mkW [(1%nat, ch [100; 105])] 1 (ch [57; 52]); mkW [(O, ch [100; 105]); (1%nat, ch [120; 46; 116; 109; 112])] 0 (ch [57; 48]);
   mkW [(O, ch [110; 79; 116]); (O, ch [68; 73]); (O, [Qu [97; 32; 98]])] 2 [Hx false 51 51; Oc 0 6 1]; mkW [(O, ch [114; 111]); (O, ch [101; 120])] 0 (ch [49; 59; 51; 50])].
Example rules1_text : write_rules rules1 = [32; 100; 105; 32; 61; 57; 52; 58] ++ [100; 105; 32; 32; 120; 46; 116; 109; 112; 61; 57; 48; 58] ++ [110; 79; 116; 32; 68; 73; 32; 34; 97; 32; 98; 34; 32; 32; 61; 92; 120; 51; 51; 92; 48; 54; 49; 58] ++ [114; 111; 32; 101; 120; 61; 49; 59; 51; 50].
Proof. vm_compute. reflexivity. Qed.
Example rules1_good : Forall good_rule rules1.
Proof.
  repeat apply Forall_cons; try apply Forall_nil; (split; [discriminate|]); (split; [repeat apply Forall_cons; try apply Forall_nil; (split; [repeat apply Forall_cons; try apply Forall_nil; cbv; intuition (try discriminate; try lia)|]); (split; [discriminate|]); (split; [try discriminate; try reflexivity|exact Logic.I])|]); (split; [exact Logic.I|]); (split; [repeat apply Forall_cons; try apply Forall_nil; cbv; intuition (try discriminate; try lia)|]); (split; [cbv; intuition discriminate|discriminate]).
Qed.
Example rules1_colors : map (color_of None None (write_rules rules1)) [mkE Pathish false false (Is Folder) [120; 46; 116; 109; 112]; mkE Pathish true false (Is Folder) [121]; file [97; 32; 98]; mkE Pathish true false (Is (Reg true)) [121]; mkE Pathish false false (Is (Reg true)) [121]; file [121]] =
  [Some [57; 48]; Some [57; 52]; Some [51; 49]; Some [49; 59; 51; 50]; Some [48; 49; 59; 51; 50]; None].
Proof. vm_compute. reflexivity. Qed.

Print Assumptions color_rules_mean.
Print Assumptions color_rules_before_error.
Print Assumptions quoted_word_refuted.
Print Assumptions escaped_space_refuted.
Print Assumptions escaped_char_refuted.
Print Assumptions surrogates_refuted.
Print Assumptions missing_color_refuted.
Print Assumptions orphan_color_refuted.
Print Assumptions prefix_color_refuted.
Print Assumptions single_type_refuted.
Print Assumptions normal_type_refuted.
Print Assumptions first_rule_wins.
