(** The flags of a rule and what they stand for. *)
From Verif Require Import Base ClSpec ClParse.
Open Scope N_scope.

Lemma eqt_eq a : forall b, eqt a b = true <-> a = b.
Proof.
  induction a as [|x a IH]; intros [|y b]; cbn [eqt]; split; intro H; try discriminate H; try reflexivity.
  - apply andb_prop in H. destruct H as [H1 H2]. apply IH in H2. apply N.eqb_eq in H1. subst. reflexivity.
  - injection H as -> H. rewrite N.eqb_refl. apply IH. exact H.
Qed.
Definition bit (i : ind) : N := match i with Norm => 1 | File => 2 | Dir => 4 | Readonly => 8 | Hidden => 16 | Link => 32 | Exec => 64 | _ => 0 end.
Definition usable (i : ind) : Prop := match i with Missing | Orphan | Sock => False | _ => True end.
Lemma bit_ne i : usable i -> bit i <> 0. Proof. destruct i; cbn; intros H; try destruct H; discriminate. Qed.

(** one word *)
Definition on_word (w : word) (x : pr) : pr :=
  match w with
  | WNot => mkPr (x_num x) (x_ind x) (x_flags x) (x_not x) (x_pats x) (x_any x) true
  | WAny => mkPr 0 (x_ind x) 0 0 (x_pats x) true false
  | WType i => mkPr (x_num x + 1) (Some i) (if x_neg x then x_flags x else N.lor (x_flags x) (bit i)) (if x_neg x then N.lor (x_not x) (bit i) else x_not x) (x_pats x) (x_any x) false
  | WPat p => mkPr (x_num x) (x_ind x) (x_flags x) (x_not x) (x_pats x ++ [mkPat p (x_neg x)]) (x_any x) false
  end.
Lemma same_word_lower b : Forall (fun y => 97 <= y <= 122) b -> forall a, iequals a b = same_word a b.
Proof.
  unfold iequals. induction 1 as [|y b Hy Hb IH]; intros [|x a]; try reflexivity. cbn [map eqt same_word]. rewrite IH. f_equal. unfold same_letter, lower. destruct ((65 <=? x) && (x <=? 90)) eqn:E1, ((65 <=? y) && (y <=? 90)) eqn:E2; lia.
Qed.
Ltac small := repeat (apply Forall_cons; [lia|]); apply Forall_nil.
Lemma follows_ok o : is_target o = follows_links o.
Proof. destruct o as [s|]; [|reflexivity]. unfold is_target, follows_links. apply same_word_lower. unfold s_target. small. Qed.
Lemma same_word_eq a b c : Forall (fun y => 97 <= y <= 122) b -> Forall (fun y => 97 <= y <= 122) c -> same_word a b = true -> same_word a c = true -> b = c.
Proof.
  intros Hb. revert a c. induction Hb as [|y b Hy Hb IH]; intros [|x a] c Hc H1 H2; cbn [same_word] in *; try discriminate; destruct Hc as [|z c Hz Hc]; cbn [same_word] in *; try discriminate; [reflexivity|].
  apply andb_prop in H1. apply andb_prop in H2. destruct H1 as [A1 B1]. destruct H2 as [A2 B2]. rewrite (IH a c Hc B1 B2). f_equal. unfold same_letter in *. lia.
Qed.
Lemma find_names t : find_ind t c_indicators = match find (fun n => same_word t (fst n)) type_names with Some (_, i) => Some (i, bit i) | None => None end.
Proof.
  unfold c_indicators, type_names. cbn [find_ind find fst].
  repeat match goal with |- context [iequals t ?k] => rewrite (same_word_lower k) by small; destruct (same_word t k); [reflexivity|] end. reflexivity.
Qed.
Lemma any_no_type t : same_word t [97; 110; 121] = true -> find (fun n => same_word t (fst n)) type_names = None.
Proof.
  intro H. unfold type_names. cbn [find fst].
  repeat match goal with |- context [same_word t ?k] => let E := fresh in destruct (same_word t k) eqn:E; [exfalso; assert (X : [97; 110; 121] = k) by (apply (same_word_eq t); [small|small|exact H|exact E]); discriminate X|clear E] end. reflexivity.
Qed.
Lemma on_token_word w x : good_word w -> on_token (reading w) (quoted w) x = on_word (word_of w) x.
Proof.
  intros (H1 & H2 & H3 & H4). unfold on_token, word_of. destruct (reading w) as [|c t] eqn:Er; [destruct (H2 eq_refl)|]. set (tk := c :: t) in *. rewrite (same_word_lower s_not), (same_word_lower ClModel.s_any) by (unfold s_not, ClModel.s_any; small). change s_not with [110; 111; 116]. change ClModel.s_any with [97; 110; 121]. destruct (quoted w) eqn:Eq.
  - rewrite (H3 eq_refl). reflexivity.
  - destruct (same_word tk [110; 111; 116]) eqn:En; [reflexivity|]. rewrite find_names. destruct (same_word tk [97; 110; 121]) eqn:Ea.
    + rewrite (any_no_type tk Ea). reflexivity.
    + destruct (find (fun n => same_word tk (fst n)) type_names) as [[n i]|]; reflexivity.
Qed.

(** the flags as the types they stand for *)
Definition pbits (l : list (bool * ind)) : N := fold_right (fun (t : bool * ind) a => N.lor (if fst t then 0 else bit (snd t)) a) 0 l.
Definition nbits (l : list (bool * ind)) : N := fold_right (fun (t : bool * ind) a => N.lor (if fst t then bit (snd t) else 0) a) 0 l.
Lemma pbits_app l t : pbits (l ++ [t]) = N.lor (pbits l) (if fst t then 0 else bit (snd t)).
Proof. induction l as [|u l IH]; [cbn; rewrite N.lor_0_r; reflexivity|]. cbn [app pbits fold_right]. fold (pbits (l ++ [t])). rewrite IH, N.lor_assoc. reflexivity. Qed.
Lemma nbits_app l t : nbits (l ++ [t]) = N.lor (nbits l) (if fst t then bit (snd t) else 0).
Proof. induction l as [|u l IH]; [cbn; rewrite N.lor_0_r; reflexivity|]. cbn [app nbits fold_right]. fold (nbits (l ++ [t])). rewrite IH, N.lor_assoc. reflexivity. Qed.
Definition mpats (l : list (bool * text)) : list pat := map (fun p => mkPat (snd p) (fst p)) l.
Definition rel (neg : bool) (s : srule) (x : pr) : Prop :=
  x_num x = length (s_types s) /\ (s_types s <> [] -> x_ind x = Some (snd (last (s_types s) (false, Norm)))) /\ x_flags x = pbits (s_types s) /\ x_not x = nbits (s_types s) /\
  x_pats x = mpats (s_pats s) /\ x_any x = s_any s /\ x_neg x = neg.
Definition usables (s : srule) : Prop := Forall (fun t : bool * ind => usable (snd t)) (s_types s).
Lemma words_rel ws : forall neg s x, Forall (fun w : nat * list item => good_word (snd w)) ws -> rel neg s x -> usables s ->
  let s' := conds neg (map (fun w => word_of (snd w)) ws) s in exists neg', rel neg' s' (on_words ws x) /\ usables s'.
Proof.
  induction ws as [|[n w] ws IH]; intros neg s x Hg Hr Hu; [exists neg; split; assumption|]. inversion Hg as [|? ? H1 Hg']; subst. cbn [snd] in H1. cbn [map snd conds]. unfold on_words. cbn [fold_left snd]. rewrite (on_token_word w x H1).
  destruct Hr as (R1 & R2 & R3 & R4 & R5 & R6 & R7). pose proof H1 as (_ & _ & _ & H4). destruct (word_of w) as [| |i|p] eqn:Ew.
  - apply (IH true s _ Hg'); [|exact Hu]. repeat (split; [assumption|]). reflexivity.
  - apply (IH false (mkS [] (s_pats s) true) _ Hg'); [|apply Forall_nil]. split; [reflexivity|]. split; [intro X; destruct (X eq_refl)|]. repeat (split; [reflexivity|]). cbn [on_word x_pats s_pats x_any s_any x_neg]. auto.
  - apply (IH false (mkS (s_types s ++ [(neg, i)]) (s_pats s) (s_any s)) _ Hg').
    + unfold rel. cbn [on_word x_num x_ind x_flags x_not x_pats x_any x_neg s_types s_pats s_any]. rewrite app_length, last_last, pbits_app, nbits_app, R3, R4, R7. cbn [length fst snd]. split; [lia|]. split; [reflexivity|]. split; [destruct neg; [rewrite N.lor_0_r|]; reflexivity|]. split; [destruct neg; [|rewrite N.lor_0_r]; reflexivity|]. auto.
    + unfold usables. cbn [s_types]. apply Forall_app. split; [exact Hu|]. apply Forall_cons; [|apply Forall_nil]. cbn [snd]. destruct i; exact Logic.I || exact H4.
  - apply (IH false (mkS (s_types s) (s_pats s ++ [(neg, p)]) (s_any s)) _ Hg'); [|exact Hu]. unfold rel. cbn [on_word x_num x_ind x_flags x_not x_pats x_any x_neg s_types s_pats s_any]. rewrite R5, R7. unfold mpats. rewrite map_app. auto 10.
Qed.
Lemma bits_zero l : Forall (fun t : bool * ind => usable (snd t)) l -> pbits l = 0 -> nbits l = 0 -> l = [].
Proof. intros Hu Hp Hn. destruct l as [|[b i] l]; [reflexivity|]. inversion Hu as [|? ? U _]; subst. cbn [pbits nbits fold_right fst snd] in *. apply N.lor_eq_0_iff in Hp, Hn. destruct (bit_ne i U). destruct b; tauto. Qed.

(** a rule as it is kept *)
Definition to_rule (r : wrule) : rule := let s := rule_of r in mkR (pbits (types s)) (nbits (types s)) (mpats (s_pats s)) (reading (w_color r)).
Lemma parse_rule_ok r : w_words r <> [] -> Forall (fun w : nat * list item => good_word (snd w)) (w_words r) ->
  parse_rule (written (snd (hd (O, []) (w_words r))) ++ write_words false (tl (w_words r))) (reading (w_color r)) =
  (let s := rule_of r in match single s with Some i => Color i | None => if empty s then Nothing else Rule (to_rule r) end) /\ usables (rule_of r).
Proof.
  intros Hn Hg. destruct (w_words r) as [|[n w] ws] eqn:Ew; [destruct (Hn eq_refl)|]. cbn [hd tl snd].
  assert (Ho : words_ok ((O, w) :: ws)). { inversion Hg as [|? ? (G1 & G2 & _) Hg']; subst. apply Forall_cons; [auto|]. apply (Forall_impl _ (P := fun w : nat * list item => good_word (snd w))); [|exact Hg']. intros v (V1 & V2 & _). auto. }
  unfold parse_rule. rewrite (loop_words ws w _ pr0 Ho (Nat.lt_succ_diag_r _)).
  destruct (words_rel ((O, w) :: ws) false (mkS [] [] false) pr0) as (neg & (R1 & R2 & R3 & R4 & R5 & R6 & _) & Hu).
  - inversion Hg as [|? ? G1 Hg']; subst. apply Forall_cons; assumption.
  - repeat (split; [reflexivity || (intro X; destruct (X eq_refl))|]). reflexivity.
  - apply Forall_nil.
  - assert (Es : conds false (map (fun w0 => word_of (snd w0)) ((O, w) :: ws)) (mkS [] [] false) = rule_of r) by (unfold rule_of; rewrite Ew; reflexivity). rewrite Es in *. split; [|exact Hu]. unfold to_rule. cbv zeta. set (s := rule_of r) in *. set (x := on_words ((O, w) :: ws) pr0) in *. rewrite R1, R3, R4, R5, R6. clearbody x. unfold single, empty, types, usables in *. destruct (s_types s) as [|[b i] l] eqn:Et.
    + change (pbits []) with 0. change (nbits []) with 0. cbn [length Nat.eqb N.eqb andb orb negb]. destruct (s_pats s) as [|p ps] eqn:Ep; [reflexivity|]. cbn [mpats map negb andb orb]. destruct (s_any s); reflexivity.
    + destruct l as [|t l].
      * inversion Hu as [|? ? U _]; subst. specialize (R2 ltac:(discriminate)). cbn [last snd] in R2, U. cbn [length Nat.eqb pbits nbits fold_right fst snd]. rewrite !N.lor_0_r. destruct b.
        -- change (0 =? 0) with true. cbn [negb andb orb]. pose proof (bit_ne i U) as Hb. apply N.eqb_neq in Hb. rewrite Hb. cbn [negb andb orb]. rewrite ?andb_false_r. destruct (s_pats s) as [|p ps] eqn:Ep; reflexivity.
        -- change (0 =? 0) with true. pose proof (bit_ne i U) as Hb. apply N.eqb_neq in Hb. destruct (s_pats s) as [|p ps] eqn:Ep; cbn [mpats map negb andb orb].
           ++ rewrite andb_true_r. destruct (bit i =? CFLAG_READONLY) eqn:Er; cbn [andb]; [destruct i; try discriminate Er; cbn; rewrite R2; reflexivity|]. rewrite Hb. cbn [negb andb]. rewrite R2. reflexivity.
           ++ rewrite !andb_false_r. cbn [andb]. rewrite Hb. cbn [negb andb orb]. rewrite ?orb_true_r. reflexivity.
      * assert (Hz : (pbits ((b, i) :: t :: l) =? 0) && (nbits ((b, i) :: t :: l) =? 0) = false). { apply andb_false_iff. destruct (N.eq_dec (pbits ((b, i) :: t :: l)) 0) as [Ez|Ez]; [right|left; apply N.eqb_neq; exact Ez]. apply N.eqb_neq. intro Ey. pose proof (bits_zero _ Hu Ez Ey) as X. discriminate X. }
        set (P := pbits ((b, i) :: t :: l)) in *. set (Q := nbits ((b, i) :: t :: l)) in *. change (length ((b, i) :: t :: l) =? 1)%nat with false. rewrite !andb_false_r. cbn [andb]. rewrite <- !andb_assoc. rewrite (andb_assoc (P =? 0)), Hz. cbn [andb]. rewrite andb_false_r. 
        replace (negb (P =? 0) || negb (Q =? 0) || negb match mpats (s_pats s) with [] => true | _ => false end) with true by (destruct (P =? 0); [destruct (Q =? 0); [discriminate Hz|reflexivity]|reflexivity]).
        destruct b; [reflexivity|]. destruct (s_pats s); reflexivity.
Qed.

(** flags and types *)
Lemma sub_iff c a : N.land c a = a <-> forall n, N.testbit a n = true -> N.testbit c n = true.
Proof.
  split.
  - intros H n Hn. rewrite <- H, N.land_spec in Hn. apply andb_prop in Hn. tauto.
  - intro H. apply N.bits_inj. intro n. rewrite N.land_spec. destruct (N.testbit a n) eqn:E; [rewrite (H n E); reflexivity|apply andb_false_r].
Qed.
Lemma disj_iff c a : N.land c a = 0 <-> forall n, N.testbit a n = true -> N.testbit c n = false.
Proof.
  split.
  - intros H n Hn. apply (f_equal (fun x => N.testbit x n)) in H. rewrite N.land_spec, Hn, andb_true_r, N.bits_0 in H. exact H.
  - intro H. apply N.bits_inj. intro n. rewrite N.land_spec, N.bits_0. destruct (N.testbit a n) eqn:E; [rewrite (H n E); reflexivity|apply andb_false_r].
Qed.
Lemma sub_lor c a b : (N.land c (N.lor a b) =? N.lor a b) = (N.land c a =? a) && (N.land c b =? b).
Proof.
  apply eq_true_iff_eq. rewrite andb_true_iff, !N.eqb_eq, !sub_iff. split.
  - intro H. split; intros n Hn; apply H; rewrite N.lor_spec, Hn; [reflexivity|apply orb_true_r].
  - intros [Ha Hb] n Hn. rewrite N.lor_spec in Hn. apply orb_prop in Hn. destruct Hn; auto.
Qed.
Lemma disj_lor c a b : (N.land c (N.lor a b) =? 0) = (N.land c a =? 0) && (N.land c b =? 0).
Proof.
  apply eq_true_iff_eq. rewrite andb_true_iff, !N.eqb_eq, !disj_iff. split.
  - intro H. split; intros n Hn; apply H; rewrite N.lor_spec, Hn; [reflexivity|apply orb_true_r].
  - intros [Ha Hb] n Hn. rewrite N.lor_spec in Hn. apply orb_prop in Hn. destruct Hn; auto.
Qed.
Definition has (c : N) (i : ind) : bool := negb (N.land c (bit i) =? 0).
Lemma has_pow c i : usable i -> (N.land c (bit i) =? bit i) = has c i.
Proof.
  intro U. assert (Hp : exists k, bit i = 2 ^ k). { destruct i; try (destruct U); [exists 0|exists 1|exists 2|exists 3|exists 4|exists 5|exists 6]; reflexivity. }
  destruct Hp as [k Hk]. unfold has. rewrite Hk. apply eq_true_iff_eq. rewrite negb_true_iff, N.eqb_eq, N.eqb_neq, sub_iff, disj_iff. split.
  - intros H Hd. pose proof (N.pow2_bits_true k) as X. specialize (H k X). rewrite (Hd k X) in H. discriminate H.
  - intros Hd n Hn. rewrite N.pow2_bits_eqb in Hn. apply N.eqb_eq in Hn. subst n. destruct (N.testbit c k) eqn:E; [reflexivity|]. exfalso. apply Hd. intros n Hn. rewrite N.pow2_bits_eqb in Hn. apply N.eqb_eq in Hn. subst n. exact E.
Qed.
Lemma bits_ok c l : Forall (fun t : bool * ind => usable (snd t)) l -> ((pbits l =? 0) || (N.land c (pbits l) =? pbits l)) && ((nbits l =? 0) || (N.land c (nbits l) =? 0)) = forallb (fun t : bool * ind => xorb (fst t) (has c (snd t))) l.
Proof.
  intro Hu. assert (E : (N.land c (pbits l) =? pbits l) && (N.land c (nbits l) =? 0) = forallb (fun t : bool * ind => xorb (fst t) (has c (snd t))) l).
  { induction l as [|[b i] l IH]; [cbn; rewrite N.land_0_r; reflexivity|]. inversion Hu as [|? ? U Hu']; subst. cbn [snd] in U. cbn [pbits nbits fold_right fst snd forallb]. fold (pbits l) (nbits l). rewrite sub_lor, disj_lor, <- (IH Hu'). destruct b; rewrite ?N.land_0_r.
    - change (0 =? 0) with true. cbn [andb xorb]. unfold has. destruct (N.land c (pbits l) =? pbits l), (N.land c (bit i) =? 0), (N.land c (nbits l) =? 0); reflexivity.
    - change (0 =? 0) with true. cbn [andb]. rewrite (has_pow c i U). cbn [xorb]. destruct (N.land c (pbits l) =? pbits l), (has c i), (N.land c (nbits l) =? 0); reflexivity. }
  rewrite <- E. f_equal.
  - destruct (pbits l =? 0) eqn:Z; [|reflexivity]. apply N.eqb_eq in Z. rewrite Z, N.land_0_r. reflexivity.
  - destruct (nbits l =? 0) eqn:Z; [|reflexivity]. apply N.eqb_eq in Z. rewrite Z, N.land_0_r. reflexivity.
Qed.

(** what a match is *)
Lemma classify_ok m e : m_colors m Missing = None -> m_colors m Orphan = None -> let t := is_target (m_colors m Link) in
  (forall i, usable i -> i <> Norm -> has (fst (classify m e)) i = is_type t e i) /\
  (let '(cf, i) := classify m e in if negb (N.land cf CFLAG_DIR =? 0) && ind_eqb i Readonly then Dir else i) = main_type t e.
Proof.
  intros Hm Ho t. unfold classify. fold t. rewrite Hm, Ho. unfold main_type, is_type, attr, kind_of, of_mode.
  split.
  - intros i U Hn. destruct i; try destruct U; try (destruct (Hn eq_refl)); destruct e as [ty ro hid st nm]; cbn [e_type e_ro e_hid e_stat]; destruct st as [|md|[md|]]; try destruct md as [[|]| |]; destruct t; destruct ty; destruct ro, hid; vm_compute; reflexivity.
  - destruct e as [ty ro hid st nm]; cbn [e_type e_ro e_hid e_stat]; destruct st as [|md|[md|]]; try destruct md as [[|]| |]; destruct t; destruct ty; destruct ro, hid; vm_compute; reflexivity.
Qed.
