(** All rules, and the color of a match under them. *)
From Verif Require Import Base ClSpec ClParse ClRules.
Open Scope N_scope.

Definition load1 (m : mc) (r : wrule) : mc :=
  let s := rule_of r in
  match single s with
  | Some i => mkM (set_color i (reading (w_color r)) (m_colors m)) (m_rules m) (if ind_eqb i Sock then reading (w_color r) else m_prefix m) true
  | None => if empty s then m else mkM (m_colors m) (m_rules m ++ [to_rule r]) (m_prefix m) true
  end.
Lemma write_rule_ne r : write_rule r <> [].
Proof. unfold write_rule. intro X. apply app_eq_nil in X. destruct X as [_ X]. apply app_eq_nil in X. destruct X as [_ X]. discriminate X. Qed.
Lemma no_prefix w l : w <> [] -> written w <> s_prefix -> l = [] \/ (exists l', l = 32 :: l') -> eqt (written w ++ l) s_prefix = false.
Proof.
  intros Hw Hn [->|[l' ->]]; [rewrite app_nil_r|]; (destruct (eqt _ s_prefix) eqn:E; [|reflexivity]); apply eqt_eq in E; [destruct (Hn E)|]. exfalso.
  assert (X : In 32 s_prefix) by (rewrite <- E; apply in_app_iff; right; left; reflexivity). unfold s_prefix in X. cbn in X. intuition discriminate.
Qed.
Lemma good_ok ws : Forall (fun w : nat * list item => good_word (snd w)) ws -> words_ok ws.
Proof. intro H. apply (Forall_impl _ (P := fun w : nat * list item => good_word (snd w))); [|exact H]. intros v (V1 & V2 & _). auto. Qed.
Lemma step_ok f r l m pre : good_rule r -> l = [] \/ (exists l', l = 58 :: l') -> rules_loop (S f) (write_rule r ++ l) m pre = rules_loop f (tl l) (load1 m r) pre.
Proof.
  intros (G1 & G2 & G3 & G4 & _ & G6) Hl. cbn [rules_loop]. destruct (write_rule r ++ l) as [|c t] eqn:E; [apply app_eq_nil in E; destruct (write_rule_ne r (proj1 E))|]. rewrite <- E. clear E.
  rewrite (rule_token r l (good_ok _ G2) G1 G3 G4 Hl). pose proof (parse_rule_ok r G1 G2) as [Ep _]. destruct (w_words r) as [|[n w] ws] eqn:Ew; [destruct (G1 eq_refl)|]. cbn [hd tl snd] in *. inversion G2 as [|? ? (W1 & W2 & _) G2']; subst. cbn [snd] in W1, W2.
  assert (Hp : eqt (written w ++ write_words false ws) s_prefix = false). { apply no_prefix; [exact (reading_ne w W2)|exact G6|]. destruct ws as [|[k v] ws]; [left; reflexivity|right]. cbn [write_words]. change (spaces (S k)) with (32 :: spaces k). cbn [app]. eexists. reflexivity. }
  destruct (written w ++ write_words false ws) as [|c' t'] eqn:Ec; [destruct (written_head w W1 (reading_ne w W2)) as (a & b & X & _); rewrite X in Ec; discriminate Ec|]. rewrite Hp, Ep. unfold load1. destruct (single (rule_of r)); [reflexivity|]. destruct (empty (rule_of r)); reflexivity.
Qed.
Lemma load_ok rules : forall f m pre, Forall good_rule rules -> (length (write_rules rules) < f)%nat -> rules_loop f (write_rules rules) m pre = (fold_left load1 rules m, pre).
Proof.
  induction rules as [|r rules IH]; intros f m pre Hg Hf; [destruct f; reflexivity|]. inversion Hg as [|? ? G Hg']; subst. destruct f as [|f]; [lia|]. cbn [fold_left]. destruct rules as [|r2 rules].
  - cbn [write_rules]. rewrite <- (app_nil_r (write_rule r)), (step_ok f r [] m pre G (or_introl eq_refl)). cbn [tl fold_left]. destruct f; reflexivity.
  - change (write_rules (r :: r2 :: rules)) with (write_rule r ++ [58] ++ write_rules (r2 :: rules)) in *. rewrite (step_ok f r ([58] ++ write_rules (r2 :: rules)) m pre G (or_intror (ex_intro _ _ eq_refl))). cbn [app tl]. apply IH; [exact Hg'|]. rewrite !app_length in Hf. cbn [length] in Hf. lia.
Qed.
Lemma ind_eqb_eq a b : ind_eqb a b = true <-> a = b. Proof. destruct a, b; cbn; split; intro H; try reflexivity; discriminate H. Qed.
Lemma load_colors rules i : forall m, m_colors (fold_left load1 rules m) i = type_color (m_colors m) rules i.
Proof.
  unfold type_color. induction rules as [|r rules IH]; intro m; [reflexivity|]. cbn [fold_left]. rewrite IH. f_equal. unfold load1. destruct (single (rule_of r)) as [j|]; [cbn [m_colors]; unfold set_color; destruct (ind_eqb j i); reflexivity|]. destruct (empty (rule_of r)); reflexivity.
Qed.
Definition ordinary (r : wrule) : bool := let s := rule_of r in negb (empty s) && match single s with Some _ => false | None => true end.
Lemma load_rules rules : forall m, m_rules (fold_left load1 rules m) = m_rules m ++ map to_rule (filter ordinary rules).
Proof.
  induction rules as [|r rules IH]; intro m; [cbn; rewrite app_nil_r; reflexivity|]. cbn [fold_left filter]. rewrite IH. unfold load1, ordinary. destruct (single (rule_of r)) as [j|] eqn:Es.
  - rewrite andb_false_r. reflexivity.
  - destruct (empty (rule_of r)); cbn [negb andb]; [reflexivity|]. cbn [m_rules map]. rewrite <- app_assoc. reflexivity.
Qed.
Lemma type_color_none rules i d : d i = None -> Forall (fun r => single (rule_of r) <> Some i) rules -> type_color d rules i = None.
Proof.
  unfold type_color. intros Hd Hf. rewrite Hd. clear Hd. induction rules as [|r rules IH]; [reflexivity|]. inversion Hf as [|? ? H1 H2]; subst. cbn [fold_left]. destruct (single (rule_of r)) as [j|] eqn:Es; [|exact (IH H2)]. destruct (ind_eqb j i) eqn:Ej; [apply ind_eqb_eq in Ej; subst; destruct (H1 eq_refl)|exact (IH H2)].
Qed.
Lemma single_usable r i : usables (rule_of r) -> single (rule_of r) = Some i -> usable i.
Proof. unfold usables, single. destruct (s_types (rule_of r)) as [|[[|] j] [|]]; try discriminate; destruct (s_pats (rule_of r)); try discriminate. intros Hu H. injection H as <-. inversion Hu; subst. assumption. Qed.
Section G.
Variable glob : text -> text -> bool.
Lemma pats_ok name l : forallb (match_pat glob name) (mpats l) = forallb (fun p : bool * text => xorb (fst p) (glob (snd p) name)) l.
Proof. induction l as [|[b p] l IH]; [reflexivity|]. cbn [mpats map forallb fst snd]. fold (mpats l). rewrite IH. f_equal. unfold match_pat. cbn [p_text p_not]. destruct b, (glob p name); reflexivity. Qed.
Lemma holds_ok m e r : m_colors m Missing = None -> m_colors m Orphan = None -> usables (rule_of r) -> (forall b, ~ In (b, Norm) (s_types (rule_of r))) ->
  rule_ok glob (fst (classify m e)) (e_name e) (to_rule r) = holds glob (is_target (m_colors m Link)) e (rule_of r).
Proof.
  intros Hm Ho Hu Hn. unfold rule_ok, to_rule, holds. cbn [r_flags r_not r_pats]. set (s := rule_of r) in *.
  assert (Hu' : Forall (fun t : bool * ind => usable (snd t) /\ snd t <> Norm) (types s)).
  { unfold types. assert (G : Forall (fun t : bool * ind => usable (snd t) /\ snd t <> Norm) (s_types s)). { apply Forall_forall. intros [b i] Hin. unfold usables in Hu. rewrite Forall_forall in Hu. split; [exact (Hu _ Hin)|]. cbn [snd]. intros ->. exact (Hn b Hin). }
    destruct (s_types s); [|exact G]. destruct (s_pats s); [exact G|]. destruct (s_any s); [exact G|]. apply Forall_cons; [split; [exact Logic.I|discriminate]|apply Forall_nil]. }
  rewrite pats_ok, bits_ok by (apply (Forall_impl _ (P := fun t : bool * ind => usable (snd t) /\ snd t <> Norm)); [intros t [T _]; exact T|exact Hu']). f_equal.
  destruct (classify_ok m e Hm Ho) as [Hc _]. induction (types s) as [|[b i] l IH]; [reflexivity|]. inversion Hu' as [|? ? [U1 U2] Hu'']; subst. cbn [forallb fst snd]. rewrite (Hc i U1 U2), (IH Hu''). reflexivity.
Qed.
Lemma find_filter {A B} (f : A -> bool) (g : A -> B) (p : B -> bool) (q : A -> bool) l : (forall a, In a l -> f a = true -> p (g a) = q a) -> find p (map g (filter f l)) = option_map g (find (fun a => f a && q a) l).
Proof.
  induction l as [|a l IH]; intro H; [reflexivity|]. cbn [filter find]. destruct (f a) eqn:Ef; cbn [map find andb].
  - rewrite (H a (or_introl eq_refl) Ef). destruct (q a); [reflexivity|]. apply IH. intros b Hb. exact (H b (or_intror Hb)).
  - apply IH. intros b Hb. exact (H b (or_intror Hb)).
Qed.
Lemma color_ok ro hid prefix rules e : Forall good_rule rules ->
  get_match_color glob (parse_match_colors ro hid prefix (write_rules rules)) e = match_color glob (defaults ro hid) rules e.
Proof.
  intro Hg. unfold parse_match_colors. rewrite (load_ok rules _ _ None Hg (Nat.lt_succ_diag_r _)). set (m0 := mkM (defaults ro hid) [] prefix false). set (m := fold_left load1 rules m0). set (m' := mkM (m_colors m) (m_rules m) (m_prefix m) (m_stats m)).
  assert (Hu : Forall (fun r => usables (rule_of r)) rules). { apply (Forall_impl _ (P := good_rule)); [|exact Hg]. intros r (G1 & G2 & _). exact (proj2 (parse_rule_ok r G1 G2)). }
  assert (Hc : forall i, m_colors m' i = type_color (defaults ro hid) rules i) by (intro i; exact (load_colors rules i m0)).
  assert (Hx : forall i, ~ usable i -> Forall (fun r => single (rule_of r) <> Some i) rules). { intros i Ni. apply (Forall_impl _ (P := fun r => usables (rule_of r))); [|exact Hu]. intros r Ur X. exact (Ni (single_usable r i Ur X)). }
  assert (Hm : m_colors m' Missing = None) by (rewrite Hc; apply type_color_none; [reflexivity|apply Hx; intros []]).
  assert (Ho : m_colors m' Orphan = None) by (rewrite Hc; apply type_color_none; [reflexivity|apply Hx; intros []]).
  unfold get_match_color, match_color. destruct (classify_ok m' e Hm Ho) as [_ Hmain]. pose proof (fun r => holds_ok m' e r Hm Ho) as Hh. destruct (classify m' e) as [cf i]. cbn [fst] in Hh. rewrite Hmain. rewrite <- (Hc Link). rewrite <- follows_ok. change (m_rules m') with (m_rules m). unfold m at 1. rewrite load_rules. cbn [m0 m_rules app].
  rewrite (find_filter ordinary to_rule _ (fun r => holds glob (is_target (m_colors m' Link)) e (rule_of r))).
  - unfold ordinary. destruct (find (fun a => _ && _ && holds glob _ e (rule_of a)) rules) as [r|]; [reflexivity|]. cbn [option_map]. apply Hc.
  - intros r Hin Hor. rewrite Forall_forall in Hu, Hg. apply (Hh r (Hu r Hin)). intros b Hb. destruct (Hg r Hin) as (_ & _ & _ & _ & G5 & _). assert (X : single (rule_of r) = Some Norm) by (apply G5; destruct b; auto). unfold ordinary in Hor. rewrite X, andb_false_r in Hor. discriminate Hor.
Qed.
End G.
