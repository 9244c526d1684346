(** Lemmas relating DoskeyModel to DoskeySpec: macro texts, arguments. *)
From Verif Require Import Base DoskeyModel DoskeySpec.

Lemma ceq_true a b : ceq a b = true <-> a = b.
Proof. apply Ascii.eqb_eq. Qed.
Lemma ceq_false a b : ceq a b = false <-> a <> b.
Proof. apply Ascii.eqb_neq. Qed.
Lemma ceq_refl a : ceq a a = true.
Proof. apply Ascii.eqb_refl. Qed.

(** ** Macro texts *)

Fixpoint parse (m : bytes) : list piece :=
  match m with
  | [] => []
  | c :: r => if negb (ceq c "$") then Ch c :: parse r
              else match r with [] => [] | t :: r' => Tag t :: parse r' end
  end.

Lemma bytes_ind2 (P : bytes -> Prop) :
  P [] -> (forall c, P [c]) -> (forall c d r, P r -> P (d :: r) -> P (c :: d :: r)) -> forall l, P l.
Proof.
  intros H0 H1 H2 l.
  assert (P l /\ forall c, P (c :: l)) as [H _]; [|exact H].
  induction l as [|c l [IH1 IH2]]; split; auto.
Qed.

Lemma parse_reads m : reads m (parse m).
Proof.
  induction m as [|c|c d r IH1 IH2] using bytes_ind2; cbn [parse].
  - split; [intros c []|left; reflexivity].
  - destruct (ceq c "$") eqn:E; cbn [negb].
    + apply ceq_true in E; subst. split; [intros c []|right; reflexivity].
    + apply ceq_false in E. split; [intros x [H|[]]; injection H as <-; auto|left; reflexivity].
  - destruct (ceq c "$") eqn:E; cbn [negb].
    + apply ceq_true in E; subst. destruct IH1 as [A B]. split.
      * intros x [H|H]; [discriminate|auto].
      * unfold spell; cbn [map concat spell1]. fold (spell (parse r)).
        destruct B as [B|B]; [left|right]; rewrite B at 1; reflexivity.
    + apply ceq_false in E. change (reads (c :: d :: r) (Ch c :: parse (d :: r))).
      destruct IH2 as [A B]. split.
      * intros x [H|H]; [injection H as <-; auto|auto].
      * unfold spell; cbn [map concat spell1]. fold (spell (parse (d :: r))).
        destruct B as [B|B]; [left|right]; rewrite B at 1; reflexivity.
Qed.

Lemma reads_unique m ps ps' : reads m ps -> reads m ps' -> ps = ps'.
Proof.
  revert m ps'; induction ps as [|p ps IH]; intros m ps' [A B] [A' B'].
  - destruct ps' as [|p' ps']; auto. exfalso.
    destruct p' as [c|t]; unfold spell in *; cbn [map concat spell1 app] in *.
    + assert (c <> "$"%char) by (apply A'; left; auto).
      destruct B as [->| ->]; destruct B' as [B'|B']; try discriminate; injection B'; intros; congruence.
    + destruct B as [->| ->]; destruct B' as [B'|B']; discriminate.
  - destruct ps' as [|p' ps'].
    + exfalso. destruct p as [c|t]; unfold spell in *; cbn [map concat spell1 app] in *.
      * assert (c <> "$"%char) by (apply A; left; auto).
        destruct B' as [->| ->]; destruct B as [B|B]; try discriminate; injection B; intros; congruence.
      * destruct B' as [->| ->]; destruct B as [B|B]; discriminate.
    + destruct p as [c|t]; destruct p' as [c'|t']; unfold spell in *; cbn [map concat spell1 app] in *.
      * destruct m as [|x m]; [destruct B; discriminate|].
        assert (c = x) by (destruct B as [B|B]; injection B; auto).
        assert (c' = x) by (destruct B' as [B'|B']; injection B'; auto).
        subst. f_equal. apply (IH m).
        -- split; [intros; apply A; right; auto|]. destruct B as [B|B]; injection B; auto.
        -- split; [intros; apply A'; right; auto|]. destruct B' as [B'|B']; injection B'; auto.
      * exfalso. assert (c <> "$"%char) by (apply A; left; auto).
        destruct B as [->| ->]; destruct B' as [B'|B']; injection B'; intros; congruence.
      * exfalso. assert (c' <> "$"%char) by (apply A'; left; auto).
        destruct B' as [->| ->]; destruct B as [B|B]; injection B; intros; congruence.
      * destruct m as [|x [|y m]]; [destruct B; discriminate|destruct B; discriminate|].
        assert (t = y) by (destruct B as [B|B]; injection B; auto).
        assert (t' = y) by (destruct B' as [B'|B']; injection B'; auto).
        subst. f_equal. apply (IH m).
        -- split; [intros; apply A; right; auto|]. destruct B as [B|B]; injection B; auto.
        -- split; [intros; apply A'; right; auto|]. destruct B' as [B'|B']; injection B'; auto.
Qed.

(** A table of all bytes decides statements about one byte. *)
Definition all_bytes : list byte := map ascii_of_nat (seq 0 256).
Lemma all_bytes_in c : In c all_bytes.
Proof.
  unfold all_bytes. apply in_map_iff. exists (nat_of_ascii c). split; [apply ascii_nat_embedding|].
  apply in_seq. pose proof (nat_ascii_bounded c). lia.
Qed.
Lemma by_table (f : byte -> bool) : forallb f all_bytes = true -> forall c, f c = true.
Proof. intros H c. rewrite forallb_forall in H. apply H, all_bytes_in. Qed.

Definition inb (c : byte) (l : bytes) : bool := existsb (Ascii.eqb c) l.
Lemma inb_iff c l : inb c l = true <-> In c l.
Proof.
  unfold inb. rewrite existsb_exists. split.
  - intros [x [H1 H2]]. apply Ascii.eqb_eq in H2; subst; auto.
  - intro H. exists c. split; auto. apply Ascii.eqb_refl.
Qed.
Lemma inb_false c l : inb c l = false <-> ~ In c l.
Proof. rewrite <- inb_iff. destruct (inb c l); split; intro H; congruence. Qed.

(** What the tag functions say of one byte. *)
Lemma tag_cases t :
  match tag_char t with
  | Some o => (t = "$" /\ o = "$")%char \/ (In t (lit "gG") /\ o = ">"%char) \/ (In t (lit "lL") /\ o = "<"%char) \/
              (In t (lit "bB") /\ o = "|"%char) \/ (In t (lit "tT") /\ o = LF)
  | None => match arg_index t with
            | Some i => i < 9 /\ t = digit (N.of_nat (S i))
            | None => t = "*"%char \/ (t <> "*"%char /\ ~ In t (lit "$gGlLbBtT123456789*"))
            end
  end.
Proof.
  assert (forall t,
    match tag_char t with
    | Some o => (ceq t "$" && ceq o "$") || (inb t (lit "gG") && ceq o ">") || (inb t (lit "lL") && ceq o "<")
                || (inb t (lit "bB") && ceq o "|") || (inb t (lit "tT") && ceq o LF)
    | None => match arg_index t with
              | Some i => Nat.ltb i 9 && ceq t (digit (N.of_nat (S i)))
              | None => ceq t "*" || (negb (ceq t "*") && negb (inb t (lit "$gGlLbBtT123456789*")))
              end
    end = true) as H by (apply by_table; vm_compute; reflexivity).
  specialize (H t). destruct (tag_char t).
  - repeat rewrite orb_true_iff in H. repeat rewrite andb_true_iff in H.
    repeat rewrite inb_iff in H. repeat rewrite ceq_true in H. tauto.
  - destruct (arg_index t).
    + rewrite andb_true_iff, ceq_true in H. destruct H as [H1 H2]. split; [lia|auto].
    + rewrite orb_true_iff, andb_true_iff, ceq_true, !negb_true_iff, ceq_false, inb_false in H. tauto.
Qed.

Definition meaning (args : list bytes) (star : bytes) (p : piece) : bytes :=
  match p with
  | Ch c => [c]
  | Tag t => match tag_char t with
             | Some o => [o]
             | None => match arg_index t with
                       | Some i => nth i args []
                       | None => if ceq t "*" then star else ["$"%char; t]
                       end
             end
  end.

Lemma expand_parse args star m : expand args star m = concat (map (meaning args star) (parse m)).
Proof.
  induction m as [|c|c d r IH1 IH2] using bytes_ind2; cbn [parse expand].
  - reflexivity.
  - destruct (ceq c "$"); reflexivity.
  - destruct (ceq c "$"); cbn [negb].
    + cbn [map concat meaning]. rewrite IH1. destruct (tag_char d); [reflexivity|].
      destruct (arg_index d); [reflexivity|]. destruct (ceq d "*"); reflexivity.
    + change (c :: expand args star (d :: r) = c :: concat (map (meaning args star) (parse (d :: r)))).
      rewrite IH2. reflexivity.
Qed.

Lemma nth_firstn_10 i (ws : list bytes) : i < 9 -> nth i (firstn 10 ws) [] = nth i ws [].
Proof.
  intro H. destruct (Nat.lt_ge_cases i (length ws)) as [H1|H1].
  - rewrite <- (firstn_skipn 10 ws) at 2. rewrite app_nth1; auto. rewrite firstn_length; lia.
  - rewrite !nth_overflow; auto. rewrite firstn_length; lia.
Qed.

Lemma meaning_means ws star p : means ws star p (meaning (firstn 10 ws) star p).
Proof.
  destruct p as [c|t]; cbn [meaning]; [constructor|].
  pose proof (tag_cases t) as H. destruct (tag_char t) as [o|].
  - destruct H as [[-> ->]|[[H ->]|[[H ->]|[[H ->]|[H ->]]]]]; constructor; auto.
  - destruct (arg_index t) as [i|].
    + destruct H as [H1 ->]. rewrite nth_firstn_10 by auto.
      replace (nth i ws []) with (argument ws (S i)).
      * constructor. lia.
      * unfold argument. f_equal. lia.
    + destruct H as [->|[H1 H2]]; [constructor|].
      apply ceq_false in H1. rewrite H1. constructor; auto.
Qed.

Lemma expand_expansion ws star m : expansion ws star m (expand (firstn 10 ws) star m).
Proof.
  exists (parse m), (map (meaning (firstn 10 ws) star) (parse m)).
  split; [apply parse_reads|]. split; [|apply expand_parse].
  induction (parse m); cbn [map]; constructor; auto using meaning_means.
Qed.

Lemma digit_arg n : 1 <= n <= 9 -> tag_char (digit (N.of_nat n)) = None /\ arg_index (digit (N.of_nat n)) = Some (n - 1).
Proof.
  intro H. do 10 (destruct n as [|n]; [first [lia|split; reflexivity]|]). lia.
Qed.

Lemma means_meaning ws star p o : means ws star p o -> o = meaning (firstn 10 ws) star p.
Proof.
  intro H; destruct H; cbn [meaning]; auto;
    try (cbn [lit list_ascii_of_string In] in H; destruct H as [<-|[<-|[]]]; reflexivity).
  - destruct (digit_arg n H) as [-> ->]. rewrite nth_firstn_10 by lia. reflexivity.
  - pose proof (tag_cases t) as T. destruct (tag_char t).
    + exfalso. apply H. clear H. cbn [lit list_ascii_of_string In] in *. intuition.
    + destruct (arg_index t) as [i|].
      * exfalso. apply H. destruct T as [T ->]. clear H. apply inb_iff.
        do 9 (destruct i as [|i]; [reflexivity|]). lia.
      * destruct T as [->|[T1 T2]]; [exfalso; apply H, inb_iff; reflexivity|].
        apply ceq_false in T1. rewrite T1. reflexivity.
Qed.

Lemma expansion_expand ws star m out : expansion ws star m out -> out = expand (firstn 10 ws) star m.
Proof.
  intros (ps & outs & R & F & ->). rewrite (reads_unique _ _ _ R (parse_reads m)) in F.
  rewrite expand_parse. f_equal. induction F; cbn [map]; auto. f_equal; auto using means_meaning.
Qed.

(** ** Argument tags within quotes *)

Definition arg_tagb (t : byte) : bool := ceq t "*" || match arg_index t with Some _ => true | None => false end.
Lemma arg_tagb_iff t : arg_tagb t = inb t (lit "*123456789").
Proof.
  assert (forall t, Bool.eqb (arg_tagb t) (inb t (lit "*123456789")) = true) as H
    by (apply by_table; vm_compute; reflexivity).
  apply eqb_prop, H.
Qed.

Fixpoint quoted_from (q : bool) (ps : list piece) : bool :=
  match ps with
  | [] => false
  | Ch c :: r => quoted_from (xorb q (ceq c QUOTE)) r
  | Tag t :: r => (arg_tagb t && q) || quoted_from (xorb q (ceq t QUOTE)) r
  end.

Lemma arg_tagb_misc t : arg_tagb t = true -> ceq t QUOTE = false /\ ceq t "$" = false.
Proof.
  assert (forall t, implb (arg_tagb t) (negb (ceq t QUOTE) && negb (ceq t "$")) = true) as H
    by (apply by_table; vm_compute; reflexivity).
  intro A. specialize (H t). rewrite A in H. cbn [implb] in H.
  apply andb_true_iff in H. rewrite !negb_true_iff in H. exact H.
Qed.

(** may_split goes on at the tag's character; it is not a $ then (or the tag is $$). *)
Lemma may_split_char q c r : ceq c "$" = false -> may_split q (c :: r) = may_split (xorb q (ceq c QUOTE)) r.
Proof. intro H. cbn [may_split]. rewrite H. cbn [negb]. destruct (ceq c QUOTE), q; reflexivity. Qed.
Lemma may_split_tag q t r :
  may_split q ("$"%char :: t :: r) =
  if arg_tagb t then if q then false else may_split q (t :: r)
  else if ceq t "$" then may_split q r else may_split q (t :: r).
Proof. reflexivity. Qed.

Lemma may_split_parse m : forall q, may_split q m = negb (quoted_from q (parse m)).
Proof.
  induction m as [|c|c d r IH1 IH2] using bytes_ind2; intro q; cbn [parse].
  - reflexivity.
  - cbn [may_split]. destruct (ceq c "$"); reflexivity.
  - destruct (ceq c "$") eqn:E; cbn [negb].
    + apply ceq_true in E; subst. rewrite may_split_tag. cbn [quoted_from].
      destruct (arg_tagb d) eqn:A; cbn [andb orb].
      * destruct (arg_tagb_misc d A) as [A1 A2]. destruct q; [reflexivity|].
        cbn [orb]. rewrite may_split_char by exact A2. apply IH1.
      * destruct (ceq d "$") eqn:E2.
        -- rewrite IH1. apply ceq_true in E2; subst. replace (ceq "$" QUOTE) with false by reflexivity.
           rewrite xorb_false_r. reflexivity.
        -- rewrite may_split_char by exact E2. apply IH1.
    + change (may_split q (c :: d :: r) = negb (quoted_from (xorb q (ceq c QUOTE)) (parse (d :: r)))).
      rewrite may_split_char by exact E. apply IH2.
Qed.

Lemma count_cons c x l : count c (x :: l) = (if Ascii.eqb c x then 1 else 0) + count c l.
Proof. unfold count; cbn [filter]. destruct (Ascii.eqb c x); reflexivity. Qed.
Lemma count_app c a b : count c (a ++ b) = count c a + count c b.
Proof. unfold count. rewrite filter_app, app_length. reflexivity. Qed.
Lemma count_nil c : count c [] = 0.
Proof. reflexivity. Qed.

Lemma odd_add a b : Nat.odd (a + b) = xorb (Nat.odd a) (Nat.odd b).
Proof. apply Nat.odd_add. Qed.

Lemma quoted_from_iff ps : forall q,
  quoted_from q ps = true <->
  exists a p b, ps = a ++ p :: b /\ arg_tag p /\ xorb q (Nat.odd (count DQ (spell a))) = true.
Proof.
  induction ps as [|p ps IH]; intro q.
  - cbn [quoted_from]. split; [discriminate|]. intros ([|? ?] & ? & ? & H & _); discriminate.
  - assert (K : forall q', (exists a x b, p :: ps = a ++ x :: b /\ arg_tag x /\
                      xorb q (Nat.odd (count DQ (spell a))) = true) <->
                   (arg_tag p /\ q = true) \/
                   (q' = xorb q (Nat.odd (count DQ (spell1 p))) ->
                    exists a x b, ps = a ++ x :: b /\ arg_tag x /\ xorb q' (Nat.odd (count DQ (spell a))) = true) /\
                   q' = xorb q (Nat.odd (count DQ (spell1 p))) \/
                   (q' <> xorb q (Nat.odd (count DQ (spell1 p))) /\
                    exists a x b, ps = a ++ x :: b /\ arg_tag x /\
                      xorb (xorb q (Nat.odd (count DQ (spell1 p)))) (Nat.odd (count DQ (spell a))) = true)).
    { intro q'. split.
      - intros ([|y a] & x & b & H & T & O).
        + injection H as -> ->. left. split; auto. unfold spell in O; cbn in O. destruct q; auto.
        + injection H as -> ->. right. unfold spell in O; cbn [map concat] in O. fold (spell a) in O.
          rewrite count_app, odd_add, <- xorb_assoc in O.
          destruct (Bool.bool_dec q' (xorb q (Nat.odd (count DQ (spell1 y))))) as [->|N].
          * left. split; auto. intros _. exists a, x, b. auto.
          * right. split; auto. exists a, x, b. auto.
      - intros [[T ->]|[[H E]|[_ H]]].
        + exists [], p, ps. auto.
        + destruct (H E) as (a & x & b & -> & T & O). exists (p :: a), x, b. split; [reflexivity|]. split; auto.
          unfold spell; cbn [map concat]. fold (spell a). rewrite count_app, odd_add, <- xorb_assoc, <- E. exact O.
        + destruct H as (a & x & b & -> & T & O). exists (p :: a), x, b. split; [reflexivity|]. split; auto.
          unfold spell; cbn [map concat]. fold (spell a). rewrite count_app, odd_add, <- xorb_assoc. exact O. }
    destruct p as [c|t].
    + rewrite (K (xorb q (ceq c QUOTE))). cbn [quoted_from]. rewrite IH.
      assert (C : Nat.odd (count DQ (spell1 (Ch c))) = ceq c QUOTE).
      { cbn [spell1]. rewrite count_cons, count_nil. unfold ceq. rewrite Ascii.eqb_sym.
        change DQ with QUOTE. destruct (Ascii.eqb c QUOTE); reflexivity. }
      rewrite C. split.
      * intro H. right. left. auto.
      * intros [[(t & H & _) _]|[[H1 H2]|[H1 _]]]; [discriminate|auto|congruence].
    + rewrite (K (xorb q (ceq t QUOTE))). cbn [quoted_from]. rewrite orb_true_iff, andb_true_iff, IH.
      assert (C : Nat.odd (count DQ (spell1 (Tag t))) = ceq t QUOTE).
      { cbn [spell1]. rewrite !count_cons, count_nil. unfold ceq. rewrite (Ascii.eqb_sym t).
        change DQ with QUOTE. destruct (Ascii.eqb QUOTE t); reflexivity. }
      rewrite C. split.
      * intros [[H1 ->]|H]; [left|right; left; auto]. split; auto. exists t. split; auto.
        rewrite arg_tagb_iff in H1. apply inb_iff; auto.
      * intros [[(t' & H & I) ->]|[[H1 H2]|[H1 _]]]; [|auto|congruence].
        injection H as <-. left. split; auto. rewrite arg_tagb_iff. apply inb_iff; auto.
Qed.

Lemma may_split_iff m : may_split false m = false <-> quoted_arg m.
Proof.
  rewrite may_split_parse, negb_false_iff, quoted_from_iff. split.
  - intros (a & p & b & H1 & H2 & H3). exists (parse m), a, p, b.
    split; [apply parse_reads|]. split; auto. split; auto. rewrite xorb_false_l in H3. apply Nat.odd_spec; auto.
  - intros (ps & a & p & b & R & H1 & H2 & H3). rewrite (reads_unique _ _ _ R (parse_reads m)) in H1.
    exists a, p, b. split; auto. split; auto. rewrite xorb_false_l. apply Nat.odd_spec; auto.
Qed.

(** ** Arguments *)

Lemma skip_spaces_split l : exists sp, l = sp ++ skip_spaces l /\ blank sp /\ (forall r, skip_spaces l <> SPC :: r).
Proof.
  induction l as [|c l IH]; cbn [skip_spaces].
  - exists []. split; auto. split; [constructor|discriminate].
  - destruct (ceq c SPC) eqn:E.
    + apply ceq_true in E; subst. destruct IH as (sp & H1 & H2 & H3). exists (SPC :: sp).
      split; [cbn [app]; f_equal; auto|]. split; [constructor; auto|auto].
    + apply ceq_false in E. exists []. split; auto. split; [constructor|]. intros r H; injection H as -> _; auto.
Qed.

Lemma skip_spaces_blank sp l : blank sp -> (forall r, l <> SPC :: r) -> skip_spaces (sp ++ l) = l.
Proof.
  intros H N. induction H as [|x sp -> H IH]; cbn [app skip_spaces].
  - destruct l as [|c l]; auto. cbn [skip_spaces]. destruct (ceq c SPC) eqn:E; auto.
    apply ceq_true in E; subst. exfalso; eapply N; reflexivity.
  - exact IH.
Qed.

Section Args.
Variable q : bool.

(** Inside a quote after [a], when the token's quote state before was [st]. *)
Definition insideb (st : bool) (a : bytes) : bool := q && xorb st (Nat.odd (count DQ a)).

Lemma inside_iff a : insideb false a = true <-> inside q a.
Proof. unfold insideb, inside. rewrite andb_true_iff, xorb_false_l, Nat.odd_spec. reflexivity. Qed.

Lemma insideb_cons st c a : insideb st (c :: a) = insideb (xorb st (ceq c QUOTE)) a.
Proof.
  unfold insideb. rewrite count_cons, odd_add, <- xorb_assoc. unfold ceq. rewrite (Ascii.eqb_sym c).
  change QUOTE with DQ. destruct (Ascii.eqb DQ c); reflexivity.
Qed.
Lemma insideb_nil st : insideb st [] = q && st.
Proof. unfold insideb. rewrite count_nil. cbn. rewrite xorb_false_r. reflexivity. Qed.

(** The next quote state of token_end. *)
Definition tq (st : bool) (c : byte) : bool := if st then negb (ceq c QUOTE) else q && ceq c QUOTE.
Lemma tq_inside st c a : (st = true -> q = true) -> insideb (tq st c) a = insideb st (c :: a).
Proof.
  intro H. rewrite insideb_cons. unfold tq, insideb. destruct st; cbn [xorb]; [reflexivity|].
  destruct q; cbn [andb]; [|reflexivity]. destruct (ceq c QUOTE); reflexivity.
Qed.
Lemma tq_q st c : (st = true -> q = true) -> tq st c = true -> q = true.
Proof. unfold tq. destruct st; auto. intros _ H. apply andb_true_iff in H. tauto. Qed.

Lemma token_end_step st c r : token_end q st (c :: r) =
  if negb st && ceq c SPC then 0 else S (token_end q (tq st c) r).
Proof. cbn [token_end]. unfold tq. destruct st; cbn [negb andb]; [reflexivity|]. destruct (ceq c SPC); reflexivity. Qed.

Lemma token_end_word w : forall st r, (st = true -> q = true) ->
  (forall a b, w = a ++ SPC :: b -> insideb st a = true) ->
  r = [] \/ (exists r', r = SPC :: r' /\ insideb st w = false) ->
  token_end q st (w ++ r) = length w.
Proof.
  induction w as [|c w IH]; intros st r Q W R.
  - cbn [app length]. destruct R as [->|(r' & -> & H)]; [reflexivity|].
    rewrite token_end_step. rewrite insideb_nil in H. destruct st; [|reflexivity].
    rewrite Q in H by auto. discriminate.
  - cbn [app length]. rewrite token_end_step. destruct (negb st && ceq c SPC) eqn:E.
    + apply andb_true_iff in E as [E1 E2]. apply ceq_true in E2; subst. apply negb_true_iff in E1; subst.
      specialize (W [] w eq_refl). rewrite insideb_nil, andb_false_r in W. discriminate.
    + f_equal. apply IH.
      * apply tq_q; auto.
      * intros a b ->. rewrite tq_inside by auto. apply (W (c :: a) b). reflexivity.
      * destruct R as [->|(r' & -> & H)]; [left; auto|right]. exists r'. split; auto. rewrite tq_inside; auto.
Qed.

Lemma token_end_cut l : forall st, (st = true -> q = true) ->
  exists w r, l = w ++ r /\ token_end q st l = length w /\
  (forall a b, w = a ++ SPC :: b -> insideb st a = true) /\
  (r = [] \/ (exists r', r = SPC :: r' /\ insideb st w = false)).
Proof.
  induction l as [|c l IH]; intros st Q.
  - exists [], []. split; auto. split; auto. split; [|auto]. intros [|? ?] b H; discriminate.
  - rewrite token_end_step. destruct (negb st && ceq c SPC) eqn:E.
    + apply andb_true_iff in E as [E1 E2]. apply ceq_true in E2; subst. apply negb_true_iff in E1; subst.
      exists [], (SPC :: l). split; auto. split; auto. split; [intros [|? ?] b H; discriminate|].
      right. exists l. split; auto. rewrite insideb_nil, andb_false_r. reflexivity.
    + destruct (IH (tq st c)) as (w & r & -> & H2 & H3 & H4); [apply tq_q; auto|].
      exists (c :: w), r. split; auto. split; [cbn [length]; rewrite H2; reflexivity|]. split.
      * intros [|x a] b H; cbn [app] in H.
        -- injection H as -> ->. rewrite insideb_nil. destruct st; [rewrite Q by auto; reflexivity|discriminate].
        -- injection H as <- ->. rewrite <- tq_inside by auto. eapply H3; reflexivity.
      * destruct H4 as [->|(r' & -> & H)]; [left; auto|right]. exists r'. split; auto. rewrite <- tq_inside; auto.
Qed.

Lemma word_false w : word q w -> forall a b, w = a ++ SPC :: b -> insideb false a = true.
Proof. intros [_ H] a b E. apply inside_iff. eauto. Qed.
Lemma word_head w : word q w -> forall r r', w ++ r' <> SPC :: r.
Proof.
  intros [H0 H] r r' E. destruct w as [|c w]; [congruence|]. cbn [app] in E. injection E as -> E.
  destruct (H [] w eq_refl) as [_ O]. cbn in O. destruct O as [x O]. lia.
Qed.

Lemma blank_skip sp : blank sp -> skip_spaces sp = [].
Proof. intro H. rewrite <- (app_nil_r sp). apply skip_spaces_blank; auto. discriminate. Qed.

(** A word list that fits is the one collected. *)
Lemma args_collect ws l : args_of q ws l -> forall n, map fst (collect_args q n l) = firstn n ws.
Proof.
  induction 1 as [sp B|sp w B W|sp w rest ws B W NI _ IH]; intros [|n]; cbn [collect_args map firstn]; auto.
  - rewrite blank_skip by auto. reflexivity.
  - rewrite skip_spaces_blank; [|auto|intros r; rewrite <- (app_nil_r w); apply word_head; auto].
    pose proof (token_end_word w false [] ltac:(discriminate) (word_false w W) (or_introl eq_refl)) as T.
    rewrite app_nil_r in T. rewrite T. destruct w as [|c w]; [destruct W; congruence|].
    cbn [length]. change (Datatypes.S (length w)) with (length (c :: w)).
    rewrite firstn_all, skipn_all. cbn [map fst]. f_equal.
    destruct n; cbn [collect_args firstn map]; auto.
  - rewrite skip_spaces_blank; [|auto|intros r; apply word_head; auto].
    assert (N : insideb false w = false).
    { destruct (insideb false w) eqn:E; auto. exfalso. apply NI, inside_iff, E. }
    rewrite (token_end_word w false (SPC :: rest)); [|discriminate|apply word_false; auto|right; eauto].
    destruct w as [|c w]; [destruct W; congruence|].
    cbn [length]. change (Datatypes.S (length w)) with (length (c :: w)).
    rewrite skipn_app_exact by reflexivity. cbn [map fst app]. rewrite firstn_app_exact by reflexivity. f_equal. apply IH.
Qed.

Lemma args_exist l : exists ws, args_of q ws l.
Proof.
  remember (length l) as n eqn:E. assert (L : length l <= n) by lia. clear E. revert l L.
  induction n as [|n IH]; intros l L.
  - destruct l; [|cbn in L; lia]. exists []. constructor. constructor.
  - destruct (skip_spaces_split l) as (sp & E & B & NS).
    destruct (token_end_cut (skip_spaces l) false ltac:(discriminate)) as (w & r & E2 & T & W & R).
    destruct w as [|c w].
    + destruct R as [->|(r' & -> & _)].
      * exists []. rewrite E, E2. cbn [app]. rewrite app_nil_r. constructor. auto.
      * exfalso. eapply NS. rewrite E2. reflexivity.
    + assert (WW : word q (c :: w)) by (split; [discriminate|]; intros; apply inside_iff; eauto).
      destruct R as [->|(r' & -> & NI)].
      * exists [c :: w]. rewrite E, E2, app_nil_r. constructor; auto.
      * destruct (IH (SPC :: r')) as [ws H].
        { rewrite E, E2 in L. rewrite !app_length in L. cbn [length] in *. lia. }
        exists ((c :: w) :: ws). rewrite E, E2. constructor; auto. rewrite <- inside_iff. congruence.
Qed.

Lemma args_unique ws ws' l : args_of q ws l -> args_of q ws' l -> ws = ws'.
Proof.
  intros H H'. pose proof (args_collect _ _ H) as C. pose proof (args_collect _ _ H') as C'.
  specialize (C (length ws + length ws')). specialize (C' (length ws + length ws')).
  rewrite firstn_all2 in C by lia. rewrite firstn_all2 in C' by lia. congruence.
Qed.

Lemma collect_nil l : collect_args q 10 l = [] <-> args_of q [] l.
Proof.
  destruct (args_exist l) as [ws H]. pose proof (args_collect _ _ H 10) as C. split; intro K.
  - rewrite K in C. destruct ws; [auto|discriminate].
  - rewrite (args_unique _ _ _ H K) in C. destruct (collect_args q 10 l); [auto|discriminate].
Qed.
End Args.
