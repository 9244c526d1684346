(** Proofs about WildModel. *)
From Verif Require Import Base CmpModel CmpSpec CmpProofs WildModel WildSpec.

Lemma wild_b c : ((c =? STAR) || (c =? QM))%N = true <-> wild c.
Proof. unfold wild. lia. Qed.

Definition absent (v : N) (l : list (N * N)) : bool := forallb (fun x => negb (N.eqb (fst x) v) && negb (N.eqb (snd x) v)) l.
Lemma assoc_absent v l c : absent v l = true -> (assoc l c = v <-> c = v)%N.
Proof.
  induction l as [|[a n] l IH]; intros H; cbn [assoc]; [tauto|]. cbn [absent forallb fst snd] in H.
  apply andb_true_iff in H as [H1 H2]. destruct (N.eqb_spec a c) as [->|]; [lia|]. apply IH. exact H2.
Qed.
Transparent accents.
Lemma accent_zero c : (assoc accents c = 0 <-> c = 0)%N.
Proof. apply assoc_absent. vm_compute. reflexivity. Qed.
Lemma accent_dot c : (assoc accents c = DOT <-> c = DOT)%N.
Proof. apply assoc_absent. vm_compute. reflexivity. Qed.
Opaque accents.

(** What is assumed about lower-casing: it neither makes nor unmakes NUL, separators and dots. *)
Definition lower_ok (lower : N -> N) : Prop :=
  (forall c, lower c = 0%N <-> c = 0%N) /\ (forall c, sep (lower c) <-> sep c) /\ (forall c, lower c = DOT <-> c = DOT).

Lemma match_char_key lower mode fuzzy c d :
  match_char lower mode fuzzy d c = true <-> key lower mode fuzzy false c = key lower mode fuzzy false d.
Proof.
  rewrite !key_fold. unfold match_char. cbv zeta.
  set (x := fold_char lower mode false d). set (y := fold_char lower mode false c).
  destruct (N.eqb_spec x y) as [E|E].
  - rewrite E. split; [intros _; apply eq_refl|intros _; apply eq_refl].
  - destruct fuzzy; cbn [negb]; cbv iota.
    + rewrite !normalize_assoc, N.eqb_eq. split; intro H; symmetry; exact H.
    + split; [discriminate|]. intro H. symmetry in H. exact (False_ind _ (E H)).
Qed.

Lemma key_zero lower mode fuzzy c : lower_ok lower -> (key lower mode fuzzy false c = 0 <-> c = 0)%N.
Proof.
  intros (H0 & _ & _). rewrite key_fold.
  assert (H : (fold_char lower mode false c = 0 <-> c = 0)%N).
  { unfold fold_char. cbv zeta. specialize (H0 c).
    set (x := if Nat.ltb 0 mode then if (65535 <? c)%N then c else lower c else c).
    assert (Hx : (x = 0 <-> c = 0)%N) by (subst x; destruct (Nat.ltb 0 mode); [destruct (65535 <? c)%N|]; tauto).
    clearbody x. destruct (Nat.ltb 1 mode); [destruct (N.eqb_spec x 45) as [E|E]|]; cbn [N.eqb Pos.eqb]; try lia;
      (destruct (N.eqb_spec x 92); lia). }
  destruct fuzzy; [|exact H]. rewrite accent_zero. exact H.
Qed.

Lemma key_dot lower mode fuzzy c : lower_ok lower -> (key lower mode fuzzy false c = DOT <-> c = DOT)%N.
Proof.
  intros (_ & _ & H0). rewrite key_fold.
  assert (H : (fold_char lower mode false c = DOT <-> c = DOT)%N).
  { unfold fold_char. cbv zeta. specialize (H0 c).
    set (x := if Nat.ltb 0 mode then if (65535 <? c)%N then c else lower c else c).
    assert (Hx : (x = DOT <-> c = DOT)%N) by (subst x; destruct (Nat.ltb 0 mode); [destruct (65535 <? c)%N|]; tauto).
    clearbody x. destruct (Nat.ltb 1 mode); [destruct (N.eqb_spec x 45) as [E|E]|]; unfold DOT in *; cbn [N.eqb Pos.eqb]; try lia;
      (destruct (N.eqb_spec x 92); lia). }
  destruct fuzzy; [|exact H]. rewrite accent_dot. exact H.
Qed.

Lemma key_sep lower mode fuzzy c : lower_ok lower -> (key lower mode fuzzy false c = 47 <-> sep c)%N.
Proof.
  intros (_ & Hs & _). rewrite key_slash. specialize (Hs c). unfold sep, fold_char in *. cbv zeta.
  set (x := if Nat.ltb 0 mode then if (65535 <? c)%N then c else lower c else c).
  assert (Hx : (x = 47 \/ x = 92 <-> c = 47 \/ c = 92)%N) by (subst x; destruct (Nat.ltb 0 mode); [destruct (65535 <? c)%N|]; tauto).
  clearbody x. destruct (Nat.ltb 1 mode); [destruct (N.eqb_spec x 45) as [E|E]|]; cbn [N.eqb Pos.eqb]; try lia;
    (destruct (N.eqb_spec x 92); lia).
Qed.

Lemma skip_wild_app w p : Forall wild w -> ~ starts wild p -> skip_wild (w ++ p) = p.
Proof.
  induction 1 as [|c w Hc Hw IH]; intro Hp; cbn [app].
  - destruct p as [|c p]; [reflexivity|]. cbn [skip_wild]. cbn [starts] in Hp. rewrite <- wild_b in Hp.
    destruct ((c =? STAR) || (c =? QM))%N; [exfalso; auto|reflexivity].
  - cbn [skip_wild]. rewrite <- wild_b in Hc. rewrite Hc. auto.
Qed.
Lemma skip_wild_split p : exists w, p = w ++ skip_wild p /\ Forall wild w /\ ~ starts wild (skip_wild p).
Proof.
  induction p as [|c p (w & E & Hw & Hs)]; [exists []; repeat split; auto|]. cbn [skip_wild].
  destruct ((c =? STAR) || (c =? QM))%N eqn:Eb.
  - exists (c :: w). cbn [app]. rewrite <- E. split; [reflexivity|]. split; [constructor; [apply wild_b; auto|auto]|auto].
  - exists []. split; [reflexivity|]. split; [constructor|]. cbn [starts]. rewrite <- wild_b. rewrite Eb. discriminate.
Qed.

Lemma drop_seps_app s p : Forall sep s -> ~ starts sep p -> drop_seps (s ++ p) = p.
Proof.
  induction 1 as [|c w Hc Hw IH]; intro Hp; cbn [app].
  - destruct p as [|c p]; [reflexivity|]. cbn [drop_seps]. cbn [starts] in Hp. rewrite <- is_sep in Hp.
    destruct (is_separator c); [exfalso; auto|reflexivity].
  - cbn [drop_seps]. rewrite <- is_sep in Hc. rewrite Hc. auto.
Qed.
Lemma drop_seps_split p : exists s, p = s ++ drop_seps p /\ Forall sep s /\ ~ starts sep (drop_seps p).
Proof.
  induction p as [|c p (w & E & Hw & Hs)]; [exists []; repeat split; auto|]. cbn [drop_seps].
  destruct (is_separator c) eqn:Eb.
  - exists (c :: w). cbn [app]. rewrite <- E. split; [reflexivity|]. split; [constructor; [apply is_sep; auto|auto]|auto].
  - exists []. split; [reflexivity|]. split; [constructor|]. cbn [starts]. rewrite <- is_sep. rewrite Eb. discriminate.
Qed.

Lemma drop_dots_app s p : Forall (fun x => x = DOT) s -> ~ starts (fun x => x = DOT) p -> drop_dots (s ++ p) = p.
Proof.
  induction 1 as [|c w Hc Hw IH]; intro Hp; cbn [app].
  - destruct p as [|c p]; [reflexivity|]. cbn [drop_dots]. cbn [starts] in Hp.
    destruct (N.eqb_spec c DOT); [exfalso; auto|reflexivity].
  - cbn [drop_dots]. rewrite Hc. auto.
Qed.
Lemma drop_dots_split p : exists s, p = s ++ drop_dots p /\ Forall (fun x => x = DOT) s /\ ~ starts (fun x => x = DOT) (drop_dots p).
Proof.
  induction p as [|c p (w & E & Hw & Hs)]; [exists []; repeat split; auto|]. cbn [drop_dots].
  destruct (N.eqb_spec c DOT) as [Eb|Eb].
  - exists (c :: w). cbn [app]. rewrite <- E. split; [reflexivity|]. split; [constructor; auto|auto].
  - exists []. split; [reflexivity|]. split; [constructor|]. exact Eb.
Qed.

(** *** Final components *)
Lemma last_component_ok l : forall cur, (not_sep l /\ last_component l cur = cur) \/
  (exists pre c, l = pre ++ c :: last_component l cur /\ sep c /\ not_sep (last_component l cur)).
Proof.
  induction l as [|c l IH]; intro cur; cbn [last_component].
  - left. split; [constructor|reflexivity].
  - destruct (is_separator c) eqn:E.
    + right. destruct (IH l) as [[H1 H2]|(pre & x & E1 & E2 & E3)].
      * exists [], c. rewrite H2. cbn [app]. split; [reflexivity|]. split; [apply is_sep; auto|auto].
      * exists (c :: pre), x. split; [cbn [app]; rewrite <- E1; reflexivity|]. auto.
    + destruct (IH cur) as [[H1 H2]|(pre & x & E1 & E2 & E3)].
      * left. split; [|exact H2]. constructor; [rewrite <- is_sep, E; discriminate|auto].
      * right. exists (c :: pre), x. split; [cbn [app]; rewrite <- E1; reflexivity|]. auto.
Qed.

Lemma final_last l : final l (last_component l l).
Proof.
  destruct (last_component_ok l l) as [[H1 H2]|(pre & c & E & Hs & Hn)].
  - rewrite H2. split; [auto|left; reflexivity].
  - split; [auto|]. right. exists pre, c. auto.
Qed.

Lemma app_cons_split {A} (a b : list A) x y l l' : a ++ x :: l = b ++ y :: l' ->
  (exists m, a ++ [x] = b ++ [y] ++ m /\ l' = m ++ l) \/ (exists m, b ++ [y] = a ++ [x] ++ m /\ l = m ++ l').
Proof.
  revert b. induction a as [|u a IH]; intros [|v b] H; cbn [app] in *.
  - inversion H; subst. left. exists []. auto.
  - inversion H; subst. right. exists (b ++ [y]). rewrite <- app_assoc. auto.
  - inversion H; subst. left. exists (a ++ [x]). rewrite <- app_assoc. auto.
  - inversion H as [[H1 H2]]. destruct (IH b H2) as [(m & E1 & E2)|(m & E1 & E2)].
    + left. exists m. rewrite E1. auto.
    + right. exists m. rewrite E1. auto.
Qed.

Lemma final_unique l a b : final l a -> final l b -> a = b.
Proof.
  intros [Ha Ha'] [Hb Hb'].
  assert (Hone : forall pre c x y, not_sep x -> sep c -> x = pre ++ c :: y -> False).
  { intros pre c x y Hx Hc ->. apply Forall_app in Hx as [_ Hx]. exact (Forall_inv Hx Hc). }
  destruct Ha' as [->|(pa & ca & Ea & Hca)], Hb' as [E|(pb & cb & Eb & Hcb)].
  - auto.
  - exfalso. eauto.
  - subst l. exfalso. eauto.
  - rewrite Ea in Eb. apply app_cons_split in Eb as [(m & E1 & E2)|(m & E1 & E2)].
    + destruct m as [|x m] using rev_ind; [cbn in E2; auto|]. clear IHm. exfalso. rewrite !app_assoc in E1.
      apply app_inj_tail in E1 as [_ ->]. rewrite <- app_assoc in E2. eauto.
    + destruct m as [|x m] using rev_ind; [cbn in E2; auto|]. clear IHm. exfalso. rewrite !app_assoc in E1.
      apply app_inj_tail in E1 as [_ ->]. rewrite <- app_assoc in E2. eauto.
Qed.

Definition suffix (l l0 : list N) : Prop := exists pre, l0 = pre ++ l.
Lemma suffix_len a b l : suffix a l -> suffix b l -> length a = length b -> a = b.
Proof.
  intros [x ->] [y E] Hl. revert y E. induction x as [|u x IH]; intros [|v y] E; cbn [app] in E; auto.
  - subst a. cbn in Hl. rewrite app_length in Hl. lia.
  - subst b. cbn in Hl. rewrite app_length in Hl. lia.
  - inversion E. eapply IH; eauto.
Qed.
Lemma suffix_tl c l l0 : suffix (c :: l) l0 -> suffix l l0.
Proof. intros [x ->]. exists (x ++ [c]). rewrite <- app_assoc. reflexivity. Qed.
Lemma suffix_app x l l0 : suffix (x ++ l) l0 -> suffix l l0.
Proof. intros [y ->]. exists (y ++ x). rewrite app_assoc. reflexivity. Qed.
Lemma final_suffix l0 l : final l0 l -> suffix l l0.
Proof. intros [_ [->|(pre & c & -> & _)]]; [exists []; auto|exists (pre ++ [c]); rewrite <- app_assoc; auto]. Qed.

Lemma at_final l0 l : suffix l l0 -> (Nat.eqb (length l) (length (last_component l0 l0)) = true <-> final l0 l).
Proof.
  intro Hs. rewrite Nat.eqb_eq. split.
  - intro Hl. rewrite (suffix_len l _ l0 Hs (final_suffix _ _ (final_last l0)) Hl). apply final_last.
  - intro Hf. rewrite (final_unique _ _ _ Hf (final_last l0)). reflexivity.
Qed.

Lemma final_wildcard_app pre c l b : sep c -> final_wildcard (pre ++ c :: l) b = final_wildcard l false.
Proof.
  intro Hc. revert b. induction pre as [|x pre IH]; intro b; cbn [app final_wildcard].
  - apply is_sep in Hc. rewrite Hc. reflexivity.
  - apply IH.
Qed.
Lemma final_wildcard_nosep l : not_sep l -> forall b, final_wildcard l b = true <-> b = true \/ Exists wild l.
Proof.
  induction 1 as [|c l Hc Hl IH]; intro b; cbn [final_wildcard].
  - split; [auto|]. intros [H|H]; [auto|inversion H].
  - rewrite <- is_sep in Hc. destruct (is_separator c); [exfalso; auto|]. rewrite IH, Exists_cons.
    rewrite orb_comm. pose proof (wild_b c) as Hw. destruct ((c =? STAR) || (c =? QM))%N.
    + split; intros _; [right; left; apply Hw; auto|left; reflexivity].
    + assert (~ wild c) by (intro H; apply Hw in H; discriminate). tauto.
Qed.
Lemma final_wildcard_ok l0 l : final l0 l -> (final_wildcard l0 false = true <-> Exists wild l).
Proof.
  intros [Hn [->|(pre & c & -> & Hc)]].
  - rewrite final_wildcard_nosep by auto. split; [intros [H|H]; [discriminate|auto]|auto].
  - rewrite final_wildcard_app by auto. rewrite final_wildcard_nosep by auto. split; [intros [H|H]; [discriminate|auto]|auto].
Qed.

(** The rest of a name from its first separator on. *)
Fixpoint from_sep (l : list N) : list N :=
  match l with
  | c :: l' => if is_separator c then l else from_sep l'
  | [] => []
  end.
Lemma from_sep_app s l : not_sep s -> from_sep (s ++ l) = from_sep l.
Proof.
  induction 1 as [|c s Hc Hs IH]; [reflexivity|]. cbn [app from_sep]. rewrite <- is_sep in Hc.
  destruct (is_separator c); [exfalso; auto|auto].
Qed.
Lemma from_sep_cons c l : ~ sep c -> from_sep (c :: l) = from_sep l.
Proof. intro H. apply (from_sep_app [c]). constructor; auto. Qed.
Lemma from_sep_sep c l : sep c -> from_sep (c :: l) = c :: l.
Proof. intro H. apply is_sep in H. cbn [from_sep]. rewrite H. reflexivity. Qed.

Section Go.
Variable lower : N -> N.
Variable mode : nat.
Variable fuzzy : bool.
Hypothesis Hlow : lower_ok lower.
Variables p0 f0 : list N.
Variable dots : bool.
Variable me : everything.
Notation same := (fun c d => key lower mode fuzzy false c = key lower mode fuzzy false d).
Notation m := (matches same p0 f0 dots me).
Notation step := (wild_step lower mode fuzzy p0 f0 dots me).
Notation run := (wild_run lower mode fuzzy).

Lemma same_sep c d : same c d -> (sep c <-> sep d).
Proof. intro H. rewrite <- (key_sep lower mode fuzzy c), <- (key_sep lower mode fuzzy d) by exact Hlow. rewrite H. apply iff_refl. Qed.
Lemma sep_same c d : sep c -> sep d -> same c d.
Proof. intros Hc Hd. rewrite <- (key_sep lower mode fuzzy) in Hc, Hd by exact Hlow. rewrite Hc, Hd. apply eq_refl. Qed.
Lemma same_zero c d : same c d -> (c = 0 <-> d = 0)%N.
Proof. intro H. rewrite <- (key_zero lower mode fuzzy c), <- (key_zero lower mode fuzzy d) by exact Hlow. rewrite H. apply iff_refl. Qed.
Lemma same_dot c d : same c d -> (c = DOT <-> d = DOT)%N.
Proof. intro H. rewrite <- (key_dot lower mode fuzzy c), <- (key_dot lower mode fuzzy d) by exact Hlow. rewrite H. apply iff_refl. Qed.
Lemma mc c d : match_char lower mode fuzzy d c = true <-> same c d.
Proof. apply match_char_key. Qed.

Lemma not_wild_sep c : sep c -> ~ wild c.
Proof. unfold sep, wild, QM, STAR. lia. Qed.

Lemma m_nil f : m [] f <-> f = [].
Proof.
  split; [|intros ->; constructor]. intro H. inversion H; subst. reflexivity.
Qed.

Lemma m_any p f : m (QM :: p) f <-> (exists d f', f = d :: f' /\ ~ sep d /\ m p f') \/ (f = [] /\ m p []).
Proof.
  split.
  - intro H. inversion H; subst.
    + exfalso. match goal with h : ~ wild QM |- _ => apply h; left; reflexivity end.
    + exfalso. match goal with h : sep QM |- _ => destruct h; discriminate end.
    + left. eauto.
    + right. auto.
    + exfalso. match goal with h : ~ wild QM |- _ => apply h; left; reflexivity end.
  - intros [(d & f' & -> & Hs & H)|[-> H]]; [apply W_any; auto|apply W_missing; auto].
Qed.

Lemma m_star_end p f : skip_wild p = [] -> (m (STAR :: p) f <-> (me = EvNo -> not_sep f)).
Proof.
  intro Hw. destruct (skip_wild_split p) as (w & E & Hww & _). rewrite Hw, app_nil_r in E. subst w.
  split; [|intro H; apply W_star_end; auto]. intro H. inversion H; subst.
  - exfalso. match goal with h : ~ wild STAR |- _ => apply h; right; reflexivity end.
  - exfalso. match goal with h : sep STAR |- _ => destruct h; discriminate end.
  - auto.
  - exfalso. match goal with h : Forall wild (_ ++ _) |- _ => apply Forall_app in h as [_ h]; apply Forall_inv in h end. auto.
  - exfalso. match goal with h : ~ wild STAR |- _ => apply h; right; reflexivity end.
Qed.

Lemma m_star p c p2 f : skip_wild p = c :: p2 ->
  (m (STAR :: p) f <-> exists s d f', f = s ++ d :: f' /\ same c d /\ (me <> EvYes -> not_sep s) /\ m p2 f').
Proof.
  intro Hw. destruct (skip_wild_split p) as (w & E & Hww & Hns). rewrite Hw in E, Hns. cbn [starts] in Hns. subst p.
  split.
  - intro H. inversion H as [| | | | |w' s' Hw' Hs'|w' c' d' s' p' f' Hw' Hc' Hd' Hs' Hm' Ep Ef|]; subst.
    + exfalso. match goal with h : ~ wild STAR |- _ => apply h; right; reflexivity end.
    + exfalso. match goal with h : sep STAR |- _ => destruct h; discriminate end.
    + exfalso. apply Forall_app in Hw' as [_ Hw']. exact (Hns (Forall_inv Hw')).
    + apply (f_equal skip_wild) in Ep. rewrite !skip_wild_app in Ep by auto. inversion Ep; subst.
      exists s', d', f'. auto.
    + exfalso. match goal with h : ~ wild STAR |- _ => apply h; right; reflexivity end.
  - intros (s & d & f' & -> & Hd & Hs & Hm). apply W_star; auto.
Qed.

Definition dot_case (p f : list N) : bool :=
  negb (is_separator (peek f)) && dots && (peek f =? DOT)%N && final_wildcard p0 false &&
         Nat.eqb (length f) (length (last_component f0 f0)) && Nat.eqb (length p) (length (last_component p0 p0)) &&
         negb (peek p =? DOT)%N.
Definition undot (p f : list N) : list N := if dot_case p f then drop_dots f else f.

Lemma dot_case_ok c p f : suffix (c :: p) p0 -> suffix f f0 ->
  (dot_case (c :: p) f = true <-> starts (fun x => x = DOT) f /\ dots = true /\ final p0 (c :: p) /\ final f0 f /\ Exists wild (c :: p) /\ c <> DOT).
Proof.
  intros Hp Hf. unfold dot_case. rewrite !andb_true_iff, at_final, at_final by auto.
  rewrite !negb_true_iff, N.eqb_eq, N.eqb_neq. change (peek (c :: p)) with c.
  split.
  - intros ((((((H1 & H2) & H3) & H4) & H5) & H6) & H7). destruct f as [|d f]; [discriminate H3|].
    cbn [starts]. repeat (split; [first [assumption|exact H3]|]). split; [|assumption]. apply (final_wildcard_ok p0); auto.
  - intros (H1 & H2 & H3 & H4 & H5 & H6). destruct f as [|d f]; [destruct H1|]. cbn [starts] in H1. subst d.
    split; [|assumption]. split; [|assumption]. split; [|assumption].
    split; [|apply (final_wildcard_ok p0 (c :: p)); auto]. split; [|reflexivity]. split; [reflexivity|assumption].
Qed.

Definition after (c : N) (l : list N) : list N := if is_separator c then drop_seps l else l.

Lemma m_plain c p f : ~ wild c ->
  (exists d f', f = d :: f' /\ same c d /\ m (after c p) (after c f')) -> m (c :: p) f.
Proof.
  intros Hw (d & f' & -> & Hd & Hm). unfold after in Hm. destruct (is_separator c) eqn:Es.
  - apply is_sep in Es. destruct (drop_seps_split p) as (s & E1 & E2 & E3). destruct (drop_seps_split f') as (t & E4 & E5 & E6).
    rewrite E1, E4. apply W_sep; auto. apply (same_sep c d); auto.
  - apply W_char; auto. rewrite <- is_sep, Es. discriminate.
Qed.

Lemma m_char c p f : ~ wild c -> suffix (c :: p) p0 -> suffix f f0 ->
  (m (c :: p) f <-> exists d f', undot (c :: p) f = d :: f' /\ same c d /\ m (after c p) (after c f')).
Proof.
  intros Hw Hp Hf. pose proof (dot_case_ok c p f Hp Hf) as Hdc.
  assert (Hplain : forall g, ~ starts (fun x => x = DOT) g \/ dot_case (c :: p) f = false ->
     (dot_case (c :: p) f = false -> g = f) ->
     m (c :: p) g -> (starts (fun x => x = DOT) g -> dot_case (c :: p) f = false) ->
     (exists d f', g = d :: f' /\ same c d /\ m (after c p) (after c f'))).
  { intros g Hg Hgf H Hs. inversion H as [|c' d' p' f' H1 H2 H3 H4|c' d' s t p' f' H1 H2 H3 H4 H5 H6 H7| | |w s H1 H2|w c' d' s p' f' H1 H2 H3 H4 H5|ds c' p' f' H1 H2 H3 H4 H5 H6 H7 H8 H9 H10]; subst.
    - exists d', f'. split; [reflexivity|]. split; [assumption|]. unfold after. rewrite <- is_sep in H2. destruct (is_separator c); [exfalso; auto|auto].
    - exists d', (t ++ f'). split; [reflexivity|]. split; [apply sep_same; auto|]. unfold after. apply is_sep in H1. rewrite H1.
      rewrite !drop_seps_app by auto. auto.
    - exfalso. apply Hw. left; reflexivity.
    - exfalso. apply Hw. left; reflexivity.
    - exfalso. apply Hw. right; reflexivity.
    - exfalso. apply Hw. right; reflexivity.
    - destruct ds as [|x ds]; [exfalso; auto|]. cbn [app] in *. pose proof (Forall_inv H8) as Hx. cbn beta in Hx.
      specialize (Hs Hx). pose proof (Hgf Hs) as E. rewrite <- E in Hdc, Hs.
      assert (dot_case (c :: p) (x :: ds ++ f') = true) as Ht by (apply Hdc; repeat (split; [assumption|]); assumption). rewrite Hs in Ht. discriminate. }
  unfold undot. destruct (dot_case (c :: p) f) eqn:Edc.
  - pose proof (proj1 Hdc eq_refl) as (H1 & H2 & H3 & H4 & H5 & H6).
    destruct (drop_dots_split f) as (ds & E1 & E2 & E3). split.
    + intro H. apply (Hplain (drop_dots f)); [left; auto|discriminate| |intro Hx; exfalso; auto].
      assert (Hne : forall d f', f = d :: f' -> ~ same c d).
      { intros d f' -> Hd. cbn [starts] in H1. apply same_dot in Hd. tauto. }
      inversion H as [|c' d' p' f' G1 G2 G3 G4|c' d' s t p' f' G1 G2 G3 G4 G5 G6 G7| | |w s G1 G2|w c' d' s p' f' G1 G2 G3 G4 G5|ds' c' p' f' G1 G2 G3 G4 G5 G6 G7 G8 G9 G10]; subst.
      * exfalso. eapply Hne; eauto.
      * exfalso. eapply Hne; eauto. apply sep_same; auto.
      * exfalso. apply Hw. left; reflexivity.
      * exfalso. apply Hw. left; reflexivity.
      * exfalso. apply Hw. right; reflexivity.
      * exfalso. apply Hw. right; reflexivity.
      * rewrite drop_dots_app by auto. exact G10.
    + intro H. apply m_plain in H; [|auto]. rewrite E1. apply W_dots; auto.
      * rewrite <- E1. auto.
      * intros ->. cbn [app] in E1. rewrite <- E1 in E3. auto.
  - split; [|apply m_plain; auto]. intro H. apply Hplain; auto.
Qed.

(** What the matcher answers for a state. *)
Definition frames (stk : list (list N * list N)) : Prop := Exists (fun fr => m (fst fr) (snd fr)) stk.
Definition answers (p f : list N) (stk : list (list N * list N)) : Prop :=
  exists k b, run k p0 f0 dots me p f stk = Some b /\ (b = true <-> m p f \/ frames stk).
Definition backs (stk : list (list N * list N)) : Prop :=
  match back_track stk with
  | Ret b => b = true <-> frames stk
  | Cont p f st => answers p f st
  end.

Lemma frames_cons p f stk : frames ((p, f) :: stk) <-> m p f \/ frames stk.
Proof. unfold frames. rewrite Exists_cons. cbn [fst snd]. apply iff_refl. Qed.
Lemma backs_nil : backs [].
Proof. unfold backs. cbn [back_track]. split; [discriminate|]. intro H. inversion H. Qed.

Lemma fail p f stk : step p f stk = back_track stk -> ~ m p f -> backs stk -> answers p f stk.
Proof.
  intros Hs Hm Hb. destruct stk as [|[p' f'] stk].
  - exists 1, false. cbn [wild_run]. rewrite Hs. cbn [back_track]. split; [reflexivity|].
    split; [discriminate|]. intros [H|H]; [exfalso; auto|inversion H].
  - unfold backs in Hb. cbn [back_track] in Hb. destruct Hb as (k & b & Hk & Hb). exists (S k), b.
    cbn [wild_run]. rewrite Hs. cbn [back_track]. split; [exact Hk|]. rewrite Hb, frames_cons. tauto.
Qed.
Lemma cont p f p' f' stk : step p f stk = Cont p' f' stk -> (m p f <-> m p' f') -> answers p' f' stk -> answers p f stk.
Proof.
  intros Hs Hm (k & b & Hk & Hb). exists (S k), b. cbn [wild_run]. rewrite Hs. split; [exact Hk|]. rewrite Hb, Hm. apply iff_refl.
Qed.
Lemma yes p f stk : step p f stk = Ret true -> m p f -> answers p f stk.
Proof. intros Hs Hm. exists 1, true. cbn [wild_run]. rewrite Hs. split; [reflexivity|tauto]. Qed.

Definition cov (p f : list N) (stk : list (list N * list N)) : Prop :=
  Forall (fun fr => m (fst fr) (snd fr) -> exists f', suffix f' f0 /\ from_sep f' = from_sep f /\ m p f') stk.

Lemma cov_step p f p' f' stk : cov p f stk ->
  (forall g, suffix g f0 -> from_sep g = from_sep f -> m p g -> exists g', suffix g' f0 /\ from_sep g' = from_sep f' /\ m p' g') -> cov p' f' stk.
Proof.
  intros Hc Hg. unfold cov in *. eapply Forall_impl; [|exact Hc]. intros fr H Hm. destruct (H Hm) as (g & G1 & G2 & G3). eauto.
Qed.

(** The scouting loop finds the first character that matches. *)
Lemma scout_ok c f : exists s, f = s ++ scout lower mode fuzzy me c f /\ (me <> EvYes -> not_sep s) /\
  Forall (fun d => ~ same c d) s /\
  (match scout lower mode fuzzy me c f with [] => True | d :: _ => (me <> EvYes /\ sep d) \/ same c d end).
Proof.
  induction f as [|d f (s & E & Hs & Hn & Hd)]; cbn [scout].
  - exists []. repeat (split; [first [reflexivity|constructor|intros _; constructor]|]). exact I.
  - destruct (match me with EvYes => true | _ => negb (is_separator d) end && negb (match_char lower mode fuzzy d c)) eqn:Eb.
    + apply andb_true_iff in Eb as [E1 E2]. apply negb_true_iff in E2. exists (d :: s). cbn [app]. rewrite <- E.
      split; [reflexivity|]. split.
      { intro Hm. constructor; [|exact (Hs Hm)]. rewrite <- is_sep. destruct me; [|exfalso; auto|]; apply negb_true_iff in E1; rewrite E1; discriminate. }
      split; [|exact Hd]. constructor; [|auto]. rewrite <- mc. rewrite E2. discriminate.
    + exists []. split; [reflexivity|]. split; [intros _; constructor|]. split; [constructor|].
      apply andb_false_iff in Eb as [E1|E1].
      * left. destruct me; [|discriminate|]; apply negb_false_iff in E1; (split; [discriminate|apply is_sep; auto]).
      * right. apply negb_false_iff in E1. apply mc; auto.
Qed.

Lemma from_sep_tail s d f f' : not_sep s -> sep d -> from_sep (s ++ d :: f) = from_sep f' ->
  forall s' d' g, f' = s' ++ d' :: g -> not_sep s' -> sep d' -> f = g.
Proof.
  intros Hs Hd E s' d' g -> Hs' Hd'. rewrite !from_sep_app, !from_sep_sep in E by auto. inversion E; auto.
Qed.

Lemma suffix_after c l l0 : suffix l l0 -> suffix (after c l) l0.
Proof.
  intro H. unfold after. destruct (is_separator c); [|auto]. destruct (drop_seps_split l) as (s & E & _).
  rewrite E in H. eapply suffix_app; eauto.
Qed.
Lemma after_len c l : length (after c l) <= length l.
Proof.
  unfold after. destruct (is_separator c); [|auto]. destruct (drop_seps_split l) as (s & E & _).
  rewrite E at 2. rewrite app_length. lia.
Qed.
Lemma forall_after (P : N -> Prop) c l : Forall P l -> Forall P (after c l).
Proof.
  intro H. unfold after. destruct (is_separator c); [|auto]. destruct (drop_seps_split l) as (s & E & _).
  rewrite E in H. apply Forall_app in H. tauto.
Qed.
Lemma stars_app a b : stars (a ++ b) = stars a + stars b.
Proof. unfold stars. apply count_occ_app. Qed.
Lemma stars_cons c l : stars l <= stars (c :: l).
Proof. unfold stars. cbn [count_occ]. destruct (N.eq_dec c STAR); lia. Qed.
Lemma stars_star l : stars (STAR :: l) = S (stars l).
Proof. unfold stars. rewrite count_occ_cons_eq; auto. Qed.
Lemma stars_after c l : stars (after c l) <= stars l.
Proof.
  unfold after. destruct (is_separator c); [|auto]. destruct (drop_seps_split l) as (s & E & _).
  rewrite E at 2. rewrite stars_app. lia.
Qed.
Lemma undot_suffix p f : exists ds, f = ds ++ undot p f /\ not_sep ds.
Proof.
  unfold undot. destruct (dot_case p f); [|exists []; split; [reflexivity|constructor]].
  destruct (drop_dots_split f) as (ds & E & H & _). exists ds. split; [exact E|].
  eapply Forall_impl; [|exact H]. cbn beta. intros x ->. intros [K|K]; discriminate.
Qed.

Lemma step_char c p f stk : c <> 0%N -> ~ wild c -> f <> [] -> Forall (fun d => d <> 0%N) f ->
  step (c :: p) f stk =
  if match_char lower mode fuzzy (peek (undot (c :: p) f)) c
  then Cont (after c p) (after c (tl (undot (c :: p) f))) stk
  else back_track stk.
Proof.
  intros Hc Hw Hf Hz. unfold wild_step. cbv zeta. change (peek (c :: p)) with c. change (tl (c :: p)) with p.
  destruct (N.eqb_spec c 0) as [|_]; [contradiction|].
  destruct (N.eqb_spec c QM) as [E|_]; [exfalso; apply Hw; left; exact E|].
  destruct (N.eqb_spec c STAR) as [E|_]; [exfalso; apply Hw; right; exact E|].
  destruct f as [|d f]; [contradiction|]. change (peek (d :: f)) with d. pose proof (Forall_inv Hz) as Hd. cbn beta in Hd.
  destruct (N.eqb_spec d 0) as [|_]; [contradiction|].
  change (negb (is_separator d) && dots && (d =? DOT)%N && final_wildcard p0 false &&
         Nat.eqb (length (d :: f)) (length (last_component f0 f0)) && Nat.eqb (length (c :: p)) (length (last_component p0 p0)) &&
         negb (c =? DOT)%N) with (dot_case (c :: p) (d :: f)).
  fold (undot (c :: p) (d :: f)). unfold after.
  destruct (match_char lower mode fuzzy (peek (undot (c :: p) (d :: f))) c); cbn [negb]; cbv iota; [|reflexivity].
  destruct (is_separator c); reflexivity.
Qed.

Lemma step_star p f stk : step (STAR :: p) f stk =
  if (peek (skip_wild p) =? 0)%N && match me with EvNo => false | _ => true end then Ret true
  else if negb (match_char lower mode fuzzy (peek (scout lower mode fuzzy me (peek (skip_wild p)) f)) (peek (skip_wild p)))
  then back_track stk
  else if match me with EvYes => false | _ => true end && is_separator (peek (scout lower mode fuzzy me (peek (skip_wild p)) f))
  then Cont (tl (skip_wild p)) (tl (scout lower mode fuzzy me (peek (skip_wild p)) f)) []
  else if Nat.eqb (length stk) 10 then Ret false
  else Cont (tl (skip_wild p)) (tl (scout lower mode fuzzy me (peek (skip_wild p)) f))
         ((STAR :: p, tl (scout lower mode fuzzy me (peek (skip_wild p)) f)) :: stk).
Proof. reflexivity. Qed.

Lemma go : forall np nf p f stk, length p <= np -> length f <= nf ->
  Forall (fun c => c <> 0%N) p -> Forall (fun c => c <> 0%N) f -> suffix p p0 -> suffix f f0 ->
  stars p + length stk <= 10 -> (me <> EvYes -> cov p f stk) -> backs stk -> answers p f stk.
Proof.
  induction np as [|np IHp].
  { intros nf p f stk Hlp _ _ Hzf _ _ _ _ Hb. destruct p; [|cbn in Hlp; lia].
    destruct f as [|d f].
    - apply yes; [reflexivity|]. apply m_nil. reflexivity.
    - apply fail; [|rewrite m_nil; discriminate|auto]. unfold wild_step. cbv zeta. cbn [peek hd N.eqb].
      pose proof (Forall_inv Hzf) as Hd. cbn beta in Hd. destruct (N.eqb_spec d 0); [contradiction|reflexivity]. }
  induction nf as [nf IHf] using lt_wf_ind. intros p f stk Hlp Hlf Hzp Hzf Hsp Hsf Hst Hcov Hb.
  destruct p as [|c p].
  { destruct f as [|d f].
    - apply yes; [reflexivity|]. apply m_nil. reflexivity.
    - apply fail; [|rewrite m_nil; discriminate|auto]. unfold wild_step. cbv zeta. cbn [peek hd N.eqb].
      pose proof (Forall_inv Hzf) as Hd. cbn beta in Hd. destruct (N.eqb_spec d 0); [contradiction|reflexivity]. }
  pose proof (Forall_inv Hzp) as Hc0. cbn beta in Hc0. pose proof (Forall_inv_tail Hzp) as Hzp'.
  cbn [length] in Hlp. pose proof (suffix_tl _ _ _ Hsp) as Hsp'. pose proof (stars_cons c p) as Hsc.
  destruct (N.eq_dec c QM) as [->|Hq].
  { (* ? *)
    destruct f as [|d f].
    - apply (cont _ _ p []).
      + reflexivity.
      + rewrite m_any. split; [|auto]. intros [(d & f' & E & _)|[_ H]]; [discriminate|auto].
      + apply (IHp 0); auto; try lia. intro Hy. eapply cov_step; [apply Hcov; auto|].
        intros g Hsg Eg Hm. apply m_any in Hm as [(d & f' & -> & Hd & Hm)|[-> Hm]].
        * exists f'. split; [eapply suffix_tl; eauto|]. rewrite from_sep_cons in Eg by auto. auto.
        * exists []. auto.
    - pose proof (Forall_inv Hzf) as Hd0. cbn beta in Hd0. destruct (is_separator d) eqn:Esd.
      + apply fail; [| |auto].
        * unfold wild_step. cbv zeta. cbn [peek hd]. rewrite Esd. reflexivity.
        * rewrite m_any. apply is_sep in Esd. intros [(d' & f' & E & Hd & _)|[E _]]; [inversion E; subst; auto|discriminate].
      + assert (Hnd : ~ sep d) by (rewrite <- is_sep, Esd; discriminate).
        apply (cont _ _ p f).
        * unfold wild_step. cbv zeta. cbn [peek hd]. rewrite Esd. destruct (N.eqb_spec d 0); [contradiction|reflexivity].
        * rewrite m_any. split; [|eauto 6]. intros [(d' & f' & E & _ & H)|[E _]]; [inversion E; subst; auto|discriminate].
        * apply (IHp (length f)); auto; try lia; [exact (Forall_inv_tail Hzf)|eapply suffix_tl; eauto|].
          intro Hy. eapply cov_step; [apply Hcov; auto|].
          intros g Hsg Eg Hm. rewrite (from_sep_cons d) in Eg by auto. apply m_any in Hm as [(d' & f' & -> & Hd & Hm)|[-> Hm]].
          -- exists f'. split; [eapply suffix_tl; eauto|]. rewrite from_sep_cons in Eg by auto. auto.
          -- exists []. auto. }
  destruct (N.eq_dec c STAR) as [->|Hs].
  { (* * *)
    rewrite stars_star in Hst.
    destruct (skip_wild_split p) as (w & Ew & Hww & Hns).
    destruct (skip_wild p) as [|c1 p2] eqn:Esk.
    - (* the star ends the pattern *)
      pose proof (m_star_end p f Esk) as Hm.
      destruct (match me with EvNo => false | _ => true end) eqn:Eme.
      + apply yes.
        * rewrite step_star, Esk, Eme. reflexivity.
        * apply Hm. intro E. rewrite E in Eme. discriminate.
      + assert (Eno : me = EvNo) by (destruct me; congruence).
        destruct (scout_ok 0%N f) as (s & Ef & Hs1 & Hs2 & Hs3). set (f1 := scout lower mode fuzzy me 0%N f) in *.
        specialize (Hs1 ltac:(rewrite Eno; discriminate)).
        assert (Hsame0 : forall d, d <> 0%N -> ~ same 0%N d) by (intros d Hd H; apply same_zero in H; tauto).
        destruct f1 as [|d f1'] eqn:Ef1.
        * rewrite app_nil_r in Ef.
          assert (Hmm : m (STAR :: p) f) by (apply Hm; intros _; rewrite Ef; auto).
          exists 2, true. split; [|tauto]. cbn [wild_run].
          assert (Estep : step (STAR :: p) f stk = Cont [] [] ((STAR :: p, []) :: stk)).
          { rewrite step_star, Esk, Eme, andb_false_r. change (peek []) with 0%N. fold f1. rewrite Ef1. change (peek []) with 0%N.
            rewrite (proj2 (mc 0%N 0%N) eq_refl). cbn [negb]. rewrite Eno.
            destruct (Nat.eqb_spec (length stk) 10); [lia|]. reflexivity. }
          rewrite Estep. reflexivity.
        * assert (Hd0 : d <> 0%N) by (rewrite Ef in Hzf; apply Forall_app in Hzf as [_ Hz]; exact (Forall_inv Hz)).
          destruct Hs3 as [[_ Hsd]|Hsd]; [|exfalso; exact (Hsame0 d Hd0 Hsd)].
          apply fail; [| |auto].
          -- rewrite step_star, Esk, Eme, andb_false_r. change (peek []) with 0%N. fold f1. rewrite Ef1. change (peek (d :: f1')) with d.
             destruct (match_char lower mode fuzzy d 0) eqn:Emc; [apply mc in Emc; exfalso; exact (Hsame0 d Hd0 Emc)|reflexivity].
          -- intro H. rewrite Hm in H. specialize (H Eno). rewrite Ef in H. apply Forall_app in H as [_ H]. exact (Forall_inv H Hsd).
    - (* a character follows *)
      cbn [starts] in Hns. pose proof (m_star p c1 p2 f Esk) as Hm. pose proof (fun g => m_star p c1 p2 g Esk) as Hmg.
      assert (Hc10 : c1 <> 0%N).
      { rewrite Ew in Hzp'. apply Forall_app in Hzp' as [_ Hz]. exact (Forall_inv Hz). }
      assert (Hsp2 : suffix p2 p0).
      { rewrite Ew in Hsp'. apply suffix_app in Hsp'. eapply suffix_tl; eauto. }
      assert (Hzp2 : Forall (fun c => c <> 0%N) p2).
      { rewrite Ew in Hzp'. apply Forall_app in Hzp' as [_ Hz]. exact (Forall_inv_tail Hz). }
      assert (Hlp2 : length p2 <= np) by (rewrite Ew, app_length in Hlp; cbn [length] in Hlp; lia).
      assert (Hst2 : stars p2 <= stars p).
      { rewrite Ew, stars_app. pose proof (stars_cons c1 p2). lia. }
      destruct (scout_ok c1 f) as (s & Ef & Hs1 & Hs2 & Hs3). set (f1 := scout lower mode fuzzy me c1 f) in *.
      assert (Estep : step (STAR :: p) f stk =
        if negb (match_char lower mode fuzzy (peek f1) c1) then back_track stk
        else if match me with EvYes => false | _ => true end && is_separator (peek f1) then Cont p2 (tl f1) []
        else if Nat.eqb (length stk) 10 then Ret false
        else Cont p2 (tl f1) ((STAR :: p, tl f1) :: stk)).
      { rewrite step_star, Esk. change (peek (c1 :: p2)) with c1. fold f1. destruct (N.eqb_spec c1 0); [contradiction|]. reflexivity. }
      (* a match of the star pattern cannot begin before the first matching character *)
      assert (Hfirst : forall s' d' g, s ++ f1 = s' ++ d' :: g -> same c1 d' -> exists x, s' = s ++ x /\ f1 = x ++ d' :: g).
      { clear - Hs2. induction s as [|y s IH]; intros s' d' g E Hd; [exists s'; auto|].
        destruct s' as [|z s']; cbn [app] in E; inversion E; subst.
        - exfalso. exact (Forall_inv Hs2 Hd).
        - destruct (IH (Forall_inv_tail Hs2) s' d' g H1 Hd) as (x & -> & ->). exists x. auto. }
      destruct f1 as [|d f2] eqn:Ef1.
      + apply fail; [| |auto].
        * rewrite Estep. cbn [peek hd]. destruct (match_char lower mode fuzzy 0 c1) eqn:Emc; [|reflexivity].
          apply mc in Emc. exfalso. apply same_zero in Emc. tauto.
        * rewrite Hm. intros (s' & d' & g & E & Hd & _). rewrite Ef in E. apply Hfirst in E as (x & _ & E2); [|auto]. destruct x; discriminate.
      + cbn [peek hd tl] in Estep. destruct (match_char lower mode fuzzy d c1) eqn:Emc; cbn [negb] in Estep.
        * apply mc in Emc.
          assert (Hsf2 : suffix f2 f0) by (rewrite Ef in Hsf; apply suffix_app in Hsf; eapply suffix_tl; eauto).
          assert (Hzf2 : Forall (fun c => c <> 0%N) f2) by (rewrite Ef in Hzf; apply Forall_app in Hzf as [_ Hz]; exact (Forall_inv_tail Hz)).
          assert (Hlf2 : length f2 < length f) by (rewrite Ef, app_length; cbn [length]; lia).
          destruct (match me with EvYes => false | _ => true end && is_separator d) eqn:Ecm.
          -- (* committed by a separator *)
             apply andb_true_iff in Ecm as [Ey Esd]. apply is_sep in Esd.
             assert (Hy : me <> EvYes) by (intro E; rewrite E in Ey; discriminate).
             specialize (Hs1 Hy). specialize (Hcov Hy).
             assert (Hans : answers p2 f2 []).
             { apply (IHp (length f2)); auto; [cbn [length]; lia| |apply backs_nil]. intros _. constructor. }
             destruct Hans as (k & b & Hk & Hkb). exists (S k), b. cbn [wild_run]. rewrite Estep. split; [exact Hk|].
             rewrite Hkb. assert (Hnf : frames [] <-> False) by (split; [intro H; inversion H|tauto]). rewrite Hnf.
             assert (Hback : forall g, from_sep g = from_sep f -> m (STAR :: p) g -> m p2 f2).
             { intros g Eg H. apply Hmg in H as (s' & d' & g' & -> & Hd' & Hns' & H). specialize (Hns' Hy).
               assert (Hsd' : sep d') by (apply (same_sep c1 d'); [auto|]; apply (same_sep c1 d); auto).
               rewrite Ef in Eg. symmetry in Eg. rewrite (from_sep_tail s d f2 _ Hs1 Esd Eg s' d' g' eq_refl Hns' Hsd'). exact H. }
             split.
             ++ intros [H|[]]. left. apply Hm. exists s, d, f2. auto.
             ++ intros [H|H]; left.
                ** apply (Hback f); auto.
                ** unfold frames in H. apply Exists_exists in H as (fr & Hin & H). unfold cov in Hcov.
                   rewrite Forall_forall in Hcov. destruct (Hcov fr Hin H) as (g & _ & Eg & Hg). eapply Hback; eauto.
          -- destruct (Nat.eqb_spec (length stk) 10); [lia|].
             assert (Hnsd : me <> EvYes -> ~ sep d).
             { intro Hy. apply andb_false_iff in Ecm as [E|E]; [destruct me; congruence|]. rewrite <- is_sep, E. discriminate. }
             assert (Hfs : me <> EvYes -> from_sep f2 = from_sep f).
             { intro Hy. rewrite Ef, from_sep_app, from_sep_cons; auto. }
             (* trying the star again, from after the matched character *)
             assert (Hbk : backs ((STAR :: p, f2) :: stk)).
             { unfold backs. cbn [back_track]. apply (IHf (length f2)); auto; try lia; try (rewrite stars_star; lia).
               intro Hy. unfold cov. specialize (Hcov Hy). eapply Forall_impl; [|exact Hcov]. cbn beta.
                 intros fr H Hfr. destruct (H Hfr) as (g & G1 & G2 & G3). exists g. rewrite Hfs by auto. auto. }
             assert (Hans : answers p2 f2 ((STAR :: p, f2) :: stk)).
             { apply (IHp (length f2)); auto; [cbn [length]; lia|]. intro Hy. constructor.
               - cbn [fst snd]. intro H. apply Hmg in H as (s' & d' & g & E & Hd' & Hns' & H). exists g.
                 assert (Hnd' : ~ sep d') by (rewrite <- (same_sep c1 d') by auto; rewrite (same_sep c1 d) by auto; auto).
                 split; [rewrite E in Hsf2; apply suffix_app in Hsf2; eapply suffix_tl; eauto|].
                 split; [|exact H]. rewrite E, from_sep_app, from_sep_cons; auto.
               - specialize (Hcov Hy). eapply Forall_impl; [|exact Hcov]. cbn beta. intros fr H Hfr.
                 destruct (H Hfr) as (g & G1 & G2 & G3). apply Hmg in G3 as (s' & d' & g' & -> & Hd' & Hns' & G3).
                 assert (Hnd' : ~ sep d') by (rewrite <- (same_sep c1 d') by auto; rewrite (same_sep c1 d) by auto; auto).
                 exists g'. split; [apply suffix_app in G1; eapply suffix_tl; eauto|]. split; [|exact G3].
                 rewrite from_sep_app, from_sep_cons in G2 by auto. rewrite G2, Hfs by auto. reflexivity. }
             destruct Hans as (k & b & Hk & Hkb). exists (S k), b. cbn [wild_run]. rewrite Estep. split; [exact Hk|].
             rewrite Hkb, frames_cons.
             assert (Hsplit : m (STAR :: p) f <-> m p2 f2 \/ m (STAR :: p) f2).
             { split.
               - intro H. apply Hm in H as (s' & d' & g & E & Hd' & Hns' & H). rewrite Ef in E.
                 apply Hfirst in E as (x & -> & E2); [|auto]. destruct x as [|y x]; cbn [app] in E2; inversion E2; subst.
                 + left. exact H.
                 + right. apply Hmg. exists x, d', g. split; [reflexivity|]. split; [auto|]. split; [|auto].
                   intro Hy. specialize (Hns' Hy). apply Forall_app in Hns' as [_ Hns']. exact (Forall_inv_tail Hns').
               - intros [H|H].
                 + apply Hm. exists s, d, f2. auto.
                 + apply Hmg in H as (s' & d' & g & -> & Hd' & Hns' & H). apply Hm. exists (s ++ d :: s'), d', g.
                   split; [rewrite Ef, <- app_assoc; reflexivity|]. split; [auto|]. split; [|auto].
                   intro Hy. apply Forall_app. split; [exact (Hs1 Hy)|]. constructor; [exact (Hnsd Hy)|exact (Hns' Hy)]. }
             rewrite Hsplit. tauto.
        * destruct Hs3 as [[Hy Hsd]|Hsd]; [|apply mc in Hsd; rewrite Hsd in Emc; discriminate].
          apply fail; [exact Estep| |auto]. rewrite Hm. intros (s' & d' & g & E & Hd & Hn & _). rewrite Ef in E.
          apply Hfirst in E as (x & -> & E2); [|auto]. destruct x as [|y x]; cbn [app] in E2; inversion E2; subst.
          -- apply mc in Hd. rewrite Hd in Emc. discriminate.
          -- specialize (Hn Hy). apply Forall_app in Hn as [_ Hn]. exact (Forall_inv Hn Hsd). }
  (* a character *)
  assert (Hw : ~ wild c) by (intros [E|E]; auto).
  pose proof (m_char c p f Hw Hsp Hsf) as Hm.
  destruct f as [|d f].
  - apply fail; [| |auto].
    + unfold wild_step. cbv zeta. cbn [peek hd]. destruct (N.eqb_spec c 0); [contradiction|].
      destruct (N.eqb_spec c QM); [contradiction|]. destruct (N.eqb_spec c STAR); [contradiction|]. reflexivity.
    + rewrite Hm. intros (d & f' & E & _). unfold undot in E. destruct (dot_case (c :: p) []); discriminate.
  - pose proof (step_char c p (d :: f) stk Hc0 Hw ltac:(discriminate) Hzf) as Estep.
    destruct (undot_suffix (c :: p) (d :: f)) as (ds & Eds & Hds).
    destruct (undot (c :: p) (d :: f)) as [|d1 f1] eqn:Eu.
    + cbn [peek hd] in Estep. destruct (match_char lower mode fuzzy 0 c) eqn:Emc.
      { exfalso. apply mc, same_zero in Emc. tauto. }
      apply fail; [exact Estep| |auto]. rewrite Hm. intros (d' & f' & E & _). discriminate.
    + cbn [peek hd tl] in Estep. destruct (match_char lower mode fuzzy d1 c) eqn:Emc.
      * apply mc in Emc. pose proof (after_len c p). pose proof (after_len c f1).
        assert (Hlf1 : length f1 < S (length f)).
        { apply (f_equal (@length N)) in Eds. rewrite app_length in Eds. cbn [length] in Eds. lia. }
        assert (Hzf1 : Forall (fun c => c <> 0%N) f1).
        { rewrite Eds in Hzf. apply Forall_app in Hzf as [_ Hz]. exact (Forall_inv_tail Hz). }
        assert (Hsf1 : suffix f1 f0) by (rewrite Eds in Hsf; apply suffix_app in Hsf; eapply suffix_tl; eauto).
        apply (cont _ _ _ _ _ Estep).
        { rewrite Hm. split; [intros (d' & f' & E & _ & H1); inversion E; subst; exact H1|eauto 6]. }
        apply (IHp (length f1)); auto; try lia; [apply forall_after; auto|apply forall_after; auto|apply suffix_after; auto|apply suffix_after; auto|pose proof (stars_after c p); lia|].
        intro Hy. eapply cov_step; [apply Hcov; auto|]. intros g Hsg Eg Hg.
        apply (m_char c p g Hw Hsp Hsg) in Hg as (d' & g' & E' & Hd' & Hg).
        destruct (undot_suffix (c :: p) g) as (ds' & Eds' & Hds'). rewrite E' in Eds'.
        exists (after c g'). split.
        { apply suffix_after. rewrite Eds' in Hsg. apply suffix_app in Hsg. eapply suffix_tl; eauto. }
        split; [|exact Hg]. rewrite Eds, Eds', !from_sep_app in Eg by auto.
        unfold after. destruct (is_separator c) eqn:Esc.
        -- apply is_sep in Esc. rewrite !from_sep_sep in Eg; [inversion Eg; reflexivity|apply (same_sep c d1); auto|apply (same_sep c d'); auto].
        -- assert (Hns : ~ sep c) by (rewrite <- is_sep, Esc; discriminate).
           rewrite !from_sep_cons in Eg; [exact Eg|rewrite <- (same_sep c d1); auto|rewrite <- (same_sep c d'); auto].
      * apply fail; [exact Estep| |auto]. rewrite Hm. intros (d' & f' & E & Hd' & _). inversion E; subst.
        apply mc in Hd'. rewrite Hd' in Emc. discriminate.
Qed.

(** Without a bound on the number of stars: the matcher still answers, and accepts only instances. *)
Definition sound (p f : list N) (stk : list (list N * list N)) : Prop :=
  exists k b, run k p0 f0 dots me p f stk = Some b /\ (b = true -> m p f \/ frames stk).
Definition sound_backs (stk : list (list N * list N)) : Prop :=
  match back_track stk with
  | Ret b => b = true -> frames stk
  | Cont p f st => sound p f st
  end.
Lemma sound_fail p f stk : step p f stk = back_track stk -> sound_backs stk -> sound p f stk.
Proof.
  intros Hs Hb. destruct stk as [|[p' f'] stk].
  - exists 1, false. cbn [wild_run]. rewrite Hs. cbn [back_track]. split; [reflexivity|discriminate].
  - unfold sound_backs in Hb. cbn [back_track] in Hb. destruct Hb as (k & b & Hk & Hb). exists (S k), b.
    cbn [wild_run]. rewrite Hs. cbn [back_track]. split; [exact Hk|]. rewrite frames_cons. tauto.
Qed.
Lemma sound_cont p f p' f' stk stk' : step p f stk = Cont p' f' stk' -> (m p' f' \/ frames stk' -> m p f \/ frames stk) ->
  sound p' f' stk' -> sound p f stk.
Proof.
  intros Hs Hm (k & b & Hk & Hb). exists (S k), b. cbn [wild_run]. rewrite Hs. split; [exact Hk|]. auto.
Qed.
Lemma sound_ret b p f stk : step p f stk = Ret b -> (b = true -> m p f) -> sound p f stk.
Proof. intros Hs Hm. exists 1, b. cbn [wild_run]. rewrite Hs. split; [reflexivity|auto]. Qed.

Lemma go_sound : forall np nf p f stk, length p <= np -> length f <= nf ->
  Forall (fun c => c <> 0%N) p -> Forall (fun c => c <> 0%N) f -> suffix p p0 -> suffix f f0 ->
  sound_backs stk -> sound p f stk.
Proof.
  induction np as [|np IHp].
  { intros nf p f stk Hlp _ _ Hzf _ _ Hb. destruct p; [|cbn in Hlp; lia].
    destruct f as [|d f].
    - apply (sound_ret true); [reflexivity|]. intros _. apply m_nil. reflexivity.
    - apply sound_fail; [|auto]. unfold wild_step. cbv zeta. cbn [peek hd N.eqb].
      pose proof (Forall_inv Hzf) as Hd. cbn beta in Hd. destruct (N.eqb_spec d 0); [contradiction|reflexivity]. }
  induction nf as [nf IHf] using lt_wf_ind. intros p f stk Hlp Hlf Hzp Hzf Hsp Hsf Hb.
  destruct p as [|c p].
  { destruct f as [|d f].
    - apply (sound_ret true); [reflexivity|]. intros _. apply m_nil. reflexivity.
    - apply sound_fail; [|auto]. unfold wild_step. cbv zeta. cbn [peek hd N.eqb].
      pose proof (Forall_inv Hzf) as Hd. cbn beta in Hd. destruct (N.eqb_spec d 0); [contradiction|reflexivity]. }
  pose proof (Forall_inv Hzp) as Hc0. cbn beta in Hc0. pose proof (Forall_inv_tail Hzp) as Hzp'.
  cbn [length] in Hlp. pose proof (suffix_tl _ _ _ Hsp) as Hsp'.
  destruct (N.eq_dec c QM) as [->|Hq].
  { destruct f as [|d f].
    - apply (sound_cont _ _ p [] _ stk).
      + reflexivity.
      + rewrite m_any. tauto.
      + apply (IHp 0); auto; lia.
    - pose proof (Forall_inv Hzf) as Hd0. cbn beta in Hd0. destruct (is_separator d) eqn:Esd.
      + apply sound_fail; [|auto]. unfold wild_step. cbv zeta. cbn [peek hd]. rewrite Esd. reflexivity.
      + assert (Hnd : ~ sep d) by (rewrite <- is_sep, Esd; discriminate).
        apply (sound_cont _ _ p f _ stk).
        * unfold wild_step. cbv zeta. cbn [peek hd]. rewrite Esd. destruct (N.eqb_spec d 0); [contradiction|reflexivity].
        * rewrite m_any. intros [H|H]; [left; left; eauto|auto].
        * apply (IHp (length f)); auto; try lia; [exact (Forall_inv_tail Hzf)|eapply suffix_tl; eauto]. }
  destruct (N.eq_dec c STAR) as [->|Hs].
  { destruct (skip_wild_split p) as (w & Ew & Hww & Hns).
    destruct (skip_wild p) as [|c1 p2] eqn:Esk.
    - pose proof (m_star_end p f Esk) as Hm. pose proof (step_star p f stk) as Estep. rewrite Esk in Estep. change (peek []) with 0%N in Estep.
      destruct (match me with EvNo => false | _ => true end) eqn:Eme.
      + apply (sound_ret true); [exact Estep|]. intros _. apply Hm. intro E. rewrite E in Eme. discriminate.
      + assert (Eno : me = EvNo) by (destruct me; congruence). rewrite andb_false_r in Estep.
        destruct (scout_ok 0%N f) as (s & Ef & Hs1 & Hs2 & Hs3). set (f1 := scout lower mode fuzzy me 0%N f) in *.
        specialize (Hs1 ltac:(rewrite Eno; discriminate)).
        assert (Hsame0 : forall d, d <> 0%N -> ~ same 0%N d) by (intros d Hd H; apply same_zero in H; tauto).
        destruct f1 as [|d f1'] eqn:Ef1.
        * rewrite app_nil_r in Ef. change (peek []) with 0%N in Estep. rewrite (proj2 (mc 0%N 0%N) eq_refl) in Estep. cbn [negb] in Estep.
          change (is_separator 0) with false in Estep. rewrite andb_false_r in Estep.
          destruct (Nat.eqb (length stk) 10).
          -- apply (sound_ret false); [exact Estep|discriminate].
          -- exists 2, true. split; [cbn [wild_run]; rewrite Estep; reflexivity|]. intros _. left. apply Hm. intros _. rewrite Ef. auto.
        * assert (Hd0 : d <> 0%N) by (rewrite Ef in Hzf; apply Forall_app in Hzf as [_ Hz]; exact (Forall_inv Hz)).
          change (peek (d :: f1')) with d in Estep.
          destruct (match_char lower mode fuzzy d 0) eqn:Emc; [apply mc in Emc; exfalso; exact (Hsame0 d Hd0 Emc)|].
          apply sound_fail; auto.
    - cbn [starts] in Hns. pose proof (fun g => m_star p c1 p2 g Esk) as Hmg.
      assert (Hc10 : c1 <> 0%N).
      { rewrite Ew in Hzp'. apply Forall_app in Hzp' as [_ Hz]. exact (Forall_inv Hz). }
      assert (Hsp2 : suffix p2 p0).
      { rewrite Ew in Hsp'. apply suffix_app in Hsp'. eapply suffix_tl; eauto. }
      assert (Hzp2 : Forall (fun c => c <> 0%N) p2).
      { rewrite Ew in Hzp'. apply Forall_app in Hzp' as [_ Hz]. exact (Forall_inv_tail Hz). }
      assert (Hlp2 : length p2 <= np) by (rewrite Ew, app_length in Hlp; cbn [length] in Hlp; lia).
      destruct (scout_ok c1 f) as (s & Ef & Hs1 & Hs2 & Hs3).
      pose proof (step_star p f stk) as Estep. rewrite Esk in Estep. change (peek (c1 :: p2)) with c1 in Estep. change (tl (c1 :: p2)) with p2 in Estep.
      destruct (N.eqb_spec c1 0); [contradiction|]. cbn [andb] in Estep.
      set (f1 := scout lower mode fuzzy me c1 f) in *.
      destruct f1 as [|d f2] eqn:Ef1.
      + change (peek []) with 0%N in Estep. destruct (match_char lower mode fuzzy 0 c1) eqn:Emc.
        { apply mc in Emc. exfalso. apply same_zero in Emc. tauto. }
        apply sound_fail; auto.
      + change (peek (d :: f2)) with d in Estep. change (tl (d :: f2)) with f2 in Estep.
        destruct (match_char lower mode fuzzy d c1) eqn:Emc; cbn [negb] in Estep; [|apply sound_fail; auto].
        apply mc in Emc.
        assert (Hsf2 : suffix f2 f0) by (rewrite Ef in Hsf; apply suffix_app in Hsf; eapply suffix_tl; eauto).
        assert (Hzf2 : Forall (fun c => c <> 0%N) f2) by (rewrite Ef in Hzf; apply Forall_app in Hzf as [_ Hz]; exact (Forall_inv_tail Hz)).
        assert (Hlf2 : length f2 < length f) by (rewrite Ef, app_length; cbn [length]; lia).
        assert (Hit : m p2 f2 -> m (STAR :: p) f) by (intro H; apply Hmg; exists s, d, f2; auto).
        destruct (match me with EvYes => false | _ => true end && is_separator d) eqn:Ecm.
        * apply (sound_cont _ _ _ _ _ _ Estep).
          -- intros [H|H]; [auto|inversion H].
          -- apply (IHp (length f2)); auto. unfold sound_backs. cbn [back_track]. discriminate.
        * destruct (Nat.eqb (length stk) 10); [apply (sound_ret false); [exact Estep|discriminate]|].
          assert (Hnsd : me <> EvYes -> ~ sep d).
          { intro Hy. apply andb_false_iff in Ecm as [E|E]; [destruct me; congruence|]. rewrite <- is_sep, E. discriminate. }
          apply (sound_cont _ _ _ _ _ _ Estep).
          -- rewrite frames_cons. intros [H|[H|H]]; [auto| |auto]. left.
             apply Hmg in H as (s' & d' & g & -> & Hd' & Hns' & H). apply Hmg. exists (s ++ d :: s'), d', g.
             split; [rewrite Ef, <- app_assoc; reflexivity|]. split; [auto|]. split; [|auto].
             intro Hy. apply Forall_app. split; [exact (Hs1 Hy)|]. constructor; [exact (Hnsd Hy)|exact (Hns' Hy)].
          -- apply (IHp (length f2)); auto. unfold sound_backs. cbn [back_track]. apply (IHf (length f2)); auto; lia. }
  assert (Hw : ~ wild c) by (intros [E|E]; auto).
  pose proof (m_char c p f Hw Hsp Hsf) as Hm.
  destruct f as [|d f].
  - apply sound_fail; [|auto].
    unfold wild_step. cbv zeta. cbn [peek hd]. destruct (N.eqb_spec c 0); [contradiction|].
      destruct (N.eqb_spec c QM); [contradiction|]. destruct (N.eqb_spec c STAR); [contradiction|]. reflexivity.
  - pose proof (step_char c p (d :: f) stk Hc0 Hw ltac:(discriminate) Hzf) as Estep.
    destruct (undot_suffix (c :: p) (d :: f)) as (ds & Eds & Hds).
    destruct (undot (c :: p) (d :: f)) as [|d1 f1] eqn:Eu.
    + cbn [peek hd] in Estep. destruct (match_char lower mode fuzzy 0 c) eqn:Emc.
      { exfalso. apply mc, same_zero in Emc. tauto. }
      apply sound_fail; auto.
    + cbn [peek hd tl] in Estep. destruct (match_char lower mode fuzzy d1 c) eqn:Emc; [|apply sound_fail; auto].
      apply mc in Emc. pose proof (after_len c p). pose proof (after_len c f1).
      assert (Hzf1 : Forall (fun c => c <> 0%N) f1).
      { rewrite Eds in Hzf. apply Forall_app in Hzf as [_ Hz]. exact (Forall_inv_tail Hz). }
      assert (Hsf1 : suffix f1 f0) by (rewrite Eds in Hsf; apply suffix_app in Hsf; eapply suffix_tl; eauto).
      apply (sound_cont _ _ _ _ _ _ Estep).
      { rewrite Hm. intros [H1|H1]; [left; eauto|auto]. }
      apply (IHp (length f1)); auto; try lia; [apply forall_after; auto|apply forall_after; auto|apply suffix_after; auto|apply suffix_after; auto].
Qed.

Lemma run_more k : forall n p f stk b, run k p0 f0 dots me p f stk = Some b -> k <= n -> run n p0 f0 dots me p f stk = Some b.
Proof.
  induction k as [|k IH]; intros n p f stk b H Hn; [discriminate|]. destruct n as [|n]; [lia|].
  cbn [wild_run] in *. destruct (step p f stk); [auto|]. apply IH; [auto|lia].
Qed.
End Go.
