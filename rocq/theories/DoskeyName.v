(** Lemmas relating DoskeyModel to DoskeySpec: parentheses, macro names, command ends. *)
From Verif Require Import Base DoskeyModel DoskeySpec DoskeyProofs.

Lemma in_lit3 (a b c x : byte) : In x [a; b; c] <-> x = a \/ x = b \/ x = c.
Proof. cbn [In]. intuition congruence. Qed.
Lemma in_lit2 (a b x : byte) : In x [a; b] <-> x = a \/ x = b.
Proof. cbn [In]. intuition congruence. Qed.
Definition open_char (c : byte) : Prop := In c (lit " @(").
Lemma open_char_iff c : open_char c <-> c = SPC \/ c = "@"%char \/ c = "("%char.
Proof. apply in_lit3. Qed.

(** ** Opening parentheses *)

Lemma opening_nil : opening [].
Proof. left; reflexivity. Qed.

Lemma opening_cons c p : open_char c -> p <> [] -> opening p -> opening (c :: p).
Proof.
  intros H N [->|(q & F & E)]; [congruence|]. right. exists (c :: q). split; [constructor; auto|].
  destruct E as [->|[->| ->]]; auto.
Qed.

Lemma opening_inv c p : opening (c :: p) ->
  open_char c /\ ((c = "("%char /\ (p = [] \/ p = [SPC] \/ p = ["@"%char])) \/ (p <> [] /\ opening p)).
Proof.
  intros [H|(q & F & E)]; [discriminate|]. destruct q as [|x q].
  - cbn [app lit list_ascii_of_string] in E.
    assert (c = "("%char /\ (p = [] \/ p = [SPC] \/ p = ["@"%char])) as [-> H].
    { destruct E as [E|[E|E]]; injection E as -> ->; auto. }
    split; [apply open_char_iff; auto|left; auto].
  - assert (c = x) as -> by (destruct E as [E|[E|E]]; injection E; auto).
    split; [exact (Forall_inv F)|right].
    assert (opening p) as O.
    { right. exists q. split; [exact (Forall_inv_tail F)|]. destruct E as [E|[E|E]]; injection E; auto. }
    split; auto. intros ->. destruct E as [E|[E|E]]; destruct q; discriminate.
Qed.

Lemma opened_unique c p p' : opened c p -> opened c p' -> p = p'.
Proof.
  intros (O & (r & E) & M) (O' & (r' & E') & M').
  pose proof (M _ _ E' O'). pose proof (M' _ _ E O).
  assert (L : length p = length p') by lia.
  rewrite <- (firstn_app_exact p r (length p)) by auto. rewrite <- E, E'. apply firstn_app_exact; auto.
Qed.

Lemma open_class c : (negb (ceq c SPC) && negb (ceq c "@") && negb (ceq c "(")) = true <-> ~ open_char c.
Proof.
  rewrite open_char_iff, !andb_true_iff, !negb_true_iff, !ceq_false. tauto.
Qed.
Lemma open_class_false c : (negb (ceq c SPC) && negb (ceq c "@") && negb (ceq c "(")) = false -> open_char c.
Proof.
  rewrite open_char_iff, !andb_false_iff, !negb_false_iff, !ceq_true. tauto.
Qed.

Lemma skip_loop_opened l : forall orig n,
  exists p, opened l p /\
    fst (skip_loop l orig n) = (match p with [] => orig | _ => skipn (length p) l end) /\
    snd (skip_loop l orig n) = n + count "(" p.
Proof.
  induction l as [|c|c d r IH1 IH2] using bytes_ind2; intros orig n.
  - exists []. split; [|split; cbn; auto].
    split; [apply opening_nil|]. split; [exists []; auto|].
    intros [|? ?] r H; [cbn; auto|discriminate].
  - cbn [skip_loop]. destruct (negb (ceq c SPC) && negb (ceq c "@") && negb (ceq c "(")) eqn:E.
    + apply open_class in E. exists []. split; [|split; cbn; auto].
      split; [apply opening_nil|]. split; [exists [c]; auto|].
      intros [|x p'] r H O; [cbn; auto|]. exfalso. injection H as <- _. apply opening_inv in O as [O _]. auto.
    + apply open_class_false in E. destruct (ceq c "(") eqn:E2.
      * apply ceq_true in E2; subst. exists (lit "("). split; [|split; cbn; auto].
        -- split; [right; exists []; split; [constructor|auto]|]. split; [exists []; auto|].
           intros p' r H _. apply (f_equal (@length byte)) in H. rewrite app_length in H. cbn in *. lia.
        -- lia.
      * apply ceq_false in E2. exists []. split; [|split; cbn; auto].
        split; [apply opening_nil|]. split; [exists [c]; auto|].
        intros [|x p'] r H O; [cbn; auto|]. exfalso. injection H as <- H. apply opening_inv in O as [_ [[O _]|[O _]]]; auto.
        destruct p'; [auto|discriminate].
  - destruct (negb (ceq c SPC) && negb (ceq c "@") && negb (ceq c "(")) eqn:E.
    + exists []. cbn [skip_loop]. rewrite E. apply open_class in E. split; [|split; cbn; auto].
      split; [apply opening_nil|]. split; [exists (c :: d :: r); auto|].
      intros [|x p'] r' H O; [cbn; auto|]. exfalso. injection H as <- _. apply opening_inv in O as [O _]. auto.
    + pose proof (open_class_false c E) as OC. destruct (ceq c "(") eqn:E2.
      * apply ceq_true in E2; subst.
        destruct (ceq d SPC || ceq d "@") eqn:E3.
        -- destruct (IH1 r (S n)) as (p & (O & (t & T) & M) & H1 & H2).
           exists ("("%char :: d :: p). split; [|split].
           ++ assert (open_char d) as OD.
              { apply open_char_iff. apply orb_true_iff in E3. rewrite !ceq_true in E3. tauto. }
              split; [|split].
              ** destruct p as [|x p].
                 --- right. exists []. split; [constructor|]. apply orb_true_iff in E3. rewrite !ceq_true in E3.
                     destruct E3 as [->| ->]; auto.
                 --- apply opening_cons; [auto|discriminate|]. apply opening_cons; [auto|discriminate|auto].
              ** exists t. cbn [app]. rewrite <- T. auto.
              ** intros [|x [|y p']] r' H O'; [cbn; lia|cbn; lia|]. injection H as <- <- H. cbn [length].
                 apply le_n_S, le_n_S. apply (M p' r' H).
                 apply opening_inv in O' as [_ [[_ O']|[_ O']]].
                 --- destruct O' as [O'|[O'|O']]; try discriminate; injection O' as -> ->; apply opening_nil.
                 --- apply opening_inv in O' as [_ [[O' _]|[_ O']]]; auto.
                     exfalso. rewrite orb_true_iff, !ceq_true in E3. subst. destruct E3; discriminate.
           ++ change (skip_loop ("("%char :: d :: r) orig n) with
                (if ceq d SPC || ceq d "@" then skip_loop r r (S n) else skip_loop (d :: r) (d :: r) (S n)).
              rewrite E3, H1.
              destruct p; cbn [length skipn]; auto.
           ++ change (skip_loop ("("%char :: d :: r) orig n) with
                (if ceq d SPC || ceq d "@" then skip_loop r r (S n) else skip_loop (d :: r) (d :: r) (S n)).
              rewrite E3, H2.
              rewrite !count_cons. apply orb_true_iff in E3. rewrite !ceq_true in E3.
              destruct E3 as [->| ->]; cbn [Ascii.eqb Bool.eqb andb SPC]; cbn; lia.
        -- destruct (IH2 (d :: r) (S n)) as (p & (O & (t & T) & M) & H1 & H2).
           exists ("("%char :: p). split; [|split].
           ++ split; [|split].
              ** destruct p as [|x p].
                 --- right. exists []. split; [constructor|]. auto.
                 --- apply opening_cons; [auto|discriminate|auto].
              ** exists t. cbn [app]. rewrite <- T. auto.
              ** intros [|x p'] r' H O'; [cbn; lia|]. injection H as <- H. cbn [length].
                 apply le_n_S. apply (M p' r' H).
                 apply opening_inv in O' as [_ [[_ O']|[_ O']]]; [|auto].
                 rewrite orb_false_iff, !ceq_false in E3.
                 destruct O' as [->|[->| ->]]; [apply opening_nil| |]; exfalso; injection H as H _; tauto.
           ++ change (skip_loop ("("%char :: d :: r) orig n) with
                (if ceq d SPC || ceq d "@" then skip_loop r r (S n) else skip_loop (d :: r) (d :: r) (S n)).
              rewrite E3, H1. destruct p; reflexivity.
           ++ change (skip_loop ("("%char :: d :: r) orig n) with
                (if ceq d SPC || ceq d "@" then skip_loop r r (S n) else skip_loop (d :: r) (d :: r) (S n)).
              rewrite E3, H2. rewrite count_cons. cbn. lia.
      * destruct (IH2 orig n) as (p & (O & (t & T) & M) & H1 & H2).
        assert (SL : skip_loop (c :: d :: r) orig n = skip_loop (d :: r) orig n).
        { cbn [skip_loop]. rewrite E2, E. reflexivity. }
        rewrite SL. apply ceq_false in E2.
        exists (match p with [] => [] | _ => c :: p end). split; [|split].
        -- split; [|split].
           ++ destruct p; [apply opening_nil|apply opening_cons; auto; discriminate].
           ++ destruct p; [exists (c :: d :: r); auto|exists t; cbn [app]; f_equal; auto].
           ++ intros [|x p'] r' H O'; [cbn; lia|]. injection H as <- H.
              apply opening_inv in O' as [_ [[O' _]|[N O']]]; [congruence|].
              specialize (M p' r' H O'). destruct p as [|y p].
              ** destruct p'; [congruence|cbn in M; lia].
              ** cbn [length] in *. lia.
        -- rewrite H1. destruct p; reflexivity.
        -- rewrite H2. destruct p as [|y p]; [reflexivity|].
           f_equal. rewrite (count_cons _ c). destruct (Ascii.eqb "(" c) eqn:E3; [|reflexivity].
           apply Ascii.eqb_eq in E3. congruence.
Qed.

(** ** Closing parentheses *)

Definition close_char (c : byte) : Prop := In c (lit " )").
Lemma close_char_iff c : close_char c <-> c = SPC \/ c = ")"%char.
Proof. apply in_lit2. Qed.

Lemma closed_unique n t u v u' v' : closed n t u v -> closed n t u' v' -> u = u' /\ v = v'.
Proof.
  intros (E & C & M) (E' & C' & M'). pose proof (M _ _ E' C'). pose proof (M' _ _ E C).
  assert (L : length v = length v') by lia.
  assert (length u = length u').
  { apply (f_equal (@length byte)) in E. apply (f_equal (@length byte)) in E'. rewrite app_length in *. lia. }
  assert (U : u = u').
  { rewrite <- (firstn_app_exact u v (length u)) by auto. rewrite <- E, E'. apply firstn_app_exact; auto. }
  split; [exact U|]. apply (app_inv_head u). congruence.
Qed.

Lemma closing_nil n : closing n [].
Proof. split; [constructor|]. split; [cbn; lia|auto]. Qed.

Lemma snoc_cases {A} (l : list A) : l = [] \/ exists l' x, l = l' ++ [x].
Proof. destruct l as [|a l] using rev_ind; [auto|]. right. eauto. Qed.

Lemma trim_loop_closed rl : forall n ret,
  exists u v, closed n (rev rl) u v /\ trim_loop rl n ret = match v with [] => ret | _ => length u end.
Proof.
  induction rl as [|c rl IH]; intros n ret.
  - exists [], []. split; [|destruct n; reflexivity]. split; auto. split; [apply closing_nil|].
    intros u' v' H _. apply (f_equal (@length byte)) in H. rewrite app_length in H. cbn in *. lia.
  - destruct n as [|n].
    + exists (rev (c :: rl)), []. split; [|reflexivity]. split; [rewrite app_nil_r; auto|]. split; [apply closing_nil|].
      intros u' v' _ (F & C & [->|(x & ->)]); [auto|]. rewrite count_cons in C. cbn in C. lia.
    + cbn [trim_loop rev]. destruct (ceq c ")") eqn:E.
      * apply ceq_true in E; subst. destruct (IH n (length rl)) as (u & v & (EQ & (F & CN & B) & M) & T).
        exists u, (v ++ [")"%char]). split; [|].
        -- split; [rewrite EQ, app_assoc; auto|]. split.
           ++ split; [apply Forall_app; split; auto; constructor; [apply close_char_iff; auto|constructor]|].
              split; [rewrite count_app, count_cons, count_nil; cbn; lia|].
              right. destruct B as [->|(v' & ->)]; [exists []; auto|exists (v' ++ [")"%char]); auto].
           ++ intros u' v' H (F' & C' & B'). destruct (snoc_cases v') as [->|(w & x & ->)]; [cbn; lia|].
              rewrite app_assoc in H. apply app_inj_tail in H as [H <-].
              rewrite !app_length. cbn [length]. apply Nat.add_le_mono_r. apply (M u' w H).
              apply Forall_app in F' as [F' _]. rewrite count_app, count_cons, count_nil in C'. cbn in C'.
              split; auto. split; [lia|]. destruct w as [|y w]; [auto|right].
              destruct B' as [B'|(z & B')]; [discriminate|]. injection B' as -> _. eauto.
        -- rewrite T. destruct v as [|y v]; cbn [app]; auto.
           rewrite app_nil_r in EQ. rewrite <- EQ, rev_length. auto.
      * apply ceq_false in E. destruct (ceq c SPC) eqn:E2.
        -- apply ceq_true in E2; subst. destruct (IH (S n) ret) as (u & v & (EQ & (F & CN & B) & M) & T).
           destruct v as [|y v].
           ++ exists (rev rl ++ [SPC]), []. split; [|auto].
              split; [rewrite app_nil_r; auto|]. split; [apply closing_nil|].
              intros u' v' H (F' & C' & B'). destruct (snoc_cases v') as [->|(w & x & ->)]; [cbn; lia|].
              rewrite app_assoc in H. apply app_inj_tail in H as [H <-]. exfalso.
              destruct w as [|z w]; [destruct B' as [B'|(z & B')]; discriminate|].
              apply Forall_app in F' as [F' _]. rewrite count_app in C'.
              specialize (M u' (z :: w) H). cbn [length] in M. enough (S (length w) <= 0) by lia. apply M.
              split; auto. split; [lia|]. destruct B' as [B'|(z' & B')]; [discriminate|]. injection B' as -> _. eauto.
           ++ exists u, ((y :: v) ++ [SPC]). split; [|auto].
              split; [rewrite EQ, app_assoc; auto|]. split.
              ** split; [apply Forall_app; split; auto; constructor; [apply close_char_iff; auto|constructor]|].
                 split; [rewrite count_app, (count_cons _ SPC), count_nil; cbn [Ascii.eqb]; cbn in CN |- *; lia|].
                 right. destruct B as [B|(v' & B)]; [discriminate|]. rewrite B. exists (v' ++ [SPC]). auto.
              ** intros u' v' H (F' & C' & B'). destruct (snoc_cases v') as [->|(w & x & ->)]; [cbn; lia|].
                 rewrite app_assoc in H. apply app_inj_tail in H as [H <-].
                 rewrite !app_length. cbn [length]. apply Nat.add_le_mono_r.
                 destruct w as [|z w]; [cbn; lia|].
                 apply (M u' (z :: w) H). apply Forall_app in F' as [F' _]. rewrite count_app in C'.
                 split; auto. split; [lia|]. destruct B' as [B'|(z' & B')]; [discriminate|]. injection B' as -> _. eauto.
        -- apply ceq_false in E2. exists (rev rl ++ [c]), []. split; [|auto].
           split; [rewrite app_nil_r; auto|]. split; [apply closing_nil|].
           intros u' v' H (F' & _). destruct (snoc_cases v') as [->|(w & x & ->)]; [cbn; lia|].
           rewrite app_assoc in H. apply app_inj_tail in H as [_ <-]. exfalso.
           apply Forall_app in F' as [_ F']. apply Forall_inv in F'. cbn beta in F'.
           apply close_char_iff in F'. tauto.
Qed.

Lemma trim_closed t n : closed n t (firstn (trim_trailing_parens t n) t) (skipn (trim_trailing_parens t n) t).
Proof.
  unfold trim_trailing_parens. destruct (trim_loop_closed (rev t) n (length t)) as (u & v & C & T).
  rewrite rev_involutive in C. rewrite T. destruct v as [|y v].
  - rewrite firstn_all, skipn_all. destruct C as (E & C & M). rewrite app_nil_r in E. subst u.
    split; [rewrite app_nil_r; auto|]. auto.
  - destruct C as (E & C & M). subst t. rewrite firstn_app_exact, skipn_app_exact by auto. split; auto.
Qed.

Lemma trim_exact t u v n : closed n t u v -> trim_trailing_parens t n = length u.
Proof.
  intro C. destruct (closed_unique _ _ _ _ _ _ C (trim_closed t n)) as [H _].
  rewrite H. rewrite firstn_length.
  destruct (trim_loop_closed (rev t) n (length t)) as (u' & v' & C' & T). rewrite rev_involutive in C'.
  unfold trim_trailing_parens. rewrite T. destruct v'; [lia|].
  destruct C' as (E & _). apply (f_equal (@length byte)) in E. rewrite app_length in E. lia.
Qed.

(** ** Command ends *)

Definition at_from (p : place) (l : bytes) : place := fold_left step l p.
Definition no_sep_from (p : place) (l : bytes) : Prop := forall a c b, l = a ++ c :: b -> ~ separates (at_from p a) c.
Definition ended (p : place) (c tail : bytes) : Prop :=
  tail = [] \/ exists x t, tail = x :: t /\ separates (at_from p c) x.

Lemma at_from_app p a b : at_from p (a ++ b) = at_from (at_from p a) b.
Proof. apply fold_left_app. Qed.

Lemma no_sep_nil p : no_sep_from p [].
Proof. intros [|? ?] c b H; discriminate. Qed.
Lemma no_sep_cons p c l : no_sep_from p (c :: l) <-> ~ separates p c /\ no_sep_from (step p c) l.
Proof.
  split.
  - intro H. split; [apply (H [] c l eq_refl)|]. intros a x b ->. apply (H (c :: a) x b eq_refl).
  - intros [H1 H2] [|y a] x b E; cbn [app] in E; injection E as <- E.
    + exact H1.
    + apply (H2 a x b E).
Qed.
Lemma no_sep_app p a b : no_sep_from p (a ++ b) <-> no_sep_from p a /\ no_sep_from (at_from p a) b.
Proof.
  revert p; induction a as [|c a IH]; intro p; cbn [app].
  - split; [intro H; split; [apply no_sep_nil|auto]|tauto].
  - rewrite !no_sep_cons, IH. cbn [at_from fold_left]. tauto.
Qed.

Lemma cut_unique p c tail c' tail' : c ++ tail = c' ++ tail' ->
  no_sep_from p c -> ended p c tail -> no_sep_from p c' -> ended p c' tail' -> c = c' /\ tail = tail'.
Proof.
  revert p c'; induction c as [|x c IH]; intros p c' E N D N' D'.
  - destruct c' as [|y c']; [auto|]. exfalso. cbn [app] in E. subst tail.
    destruct D as [D|(z & t & D & S)]; [discriminate|]. injection D as <- _.
    apply no_sep_cons in N' as [N' _]. auto.
  - destruct c' as [|y c'].
    + exfalso. cbn [app] in E. subst tail'. destruct D' as [D'|(z & t & D' & S)]; [discriminate|]. injection D' as <- _.
      apply no_sep_cons in N as [N _]. auto.
    + cbn [app] in E. injection E as <- E. apply no_sep_cons in N as [_ N], N' as [_ N'].
      destruct (IH (step p x) c' E N) as [-> ->]; auto.
Qed.

Lemma is_sep_iff c : is_sep c = true <-> c = "|"%char \/ c = "&"%char.
Proof. unfold is_sep. rewrite orb_true_iff, !ceq_true. reflexivity. Qed.
Lemma is_sep_false c : is_sep c = false <-> ~ (c = "|"%char \/ c = "&"%char).
Proof. rewrite <- is_sep_iff. destruct (is_sep c); split; intro H; congruence. Qed.

Lemma separates_sep p c : separates p c -> is_sep c = true.
Proof. rewrite is_sep_iff. unfold separates. tauto. Qed.

(** After > anything but & is as outside. *)
Lemma redirect_outside c l : c <> "&"%char ->
  (no_sep_from Redirect (c :: l) <-> no_sep_from Outside (c :: l)) /\ at_from Redirect (c :: l) = at_from Outside (c :: l).
Proof.
  intro H. cbn [at_from fold_left step]. assert (E : Ascii.eqb c "&" = false) by (apply Ascii.eqb_neq; auto).
  rewrite !no_sep_cons. cbn [step]. rewrite E. split; [|reflexivity].
  assert (separates Redirect c <-> separates Outside c).
  { unfold separates. intuition congruence. }
  tauto.
Qed.

Definition place_of (quote : bool) : place := if quote then Inside else Outside.

Lemma fce_cut l : forall quote, exists c tail,
  l = c ++ tail /\ find_command_end quote l = length c /\
  no_sep_from (place_of quote) c /\ ended (place_of quote) c tail.
Proof.
  assert (NI : forall c, ~ separates Inside c) by (intros c [[H _]|[H _]]; discriminate).
  assert (STEP : forall quote c c' tail r n, r = c' ++ tail -> n = length c' ->
     ~ separates (place_of quote) c -> no_sep_from (step (place_of quote) c) c' ->
     ended (step (place_of quote) c) c' tail ->
     exists k t, c :: r = k ++ t /\ S n = length k /\ no_sep_from (place_of quote) k /\ ended (place_of quote) k t).
  { intros quote c c' tail r n -> -> H1 H2 H3. exists (c :: c'), tail. split; auto. split; auto.
    split; [apply no_sep_cons; auto|exact H3]. }
  assert (LAST : forall quote c, ~ separates (place_of quote) c ->
     exists k t, [c] = k ++ t /\ 1 = length k /\ no_sep_from (place_of quote) k /\ ended (place_of quote) k t).
  { intros quote c H. apply (STEP quote c [] [] [] 0); auto using no_sep_nil. left; auto. }
  assert (QN : forall quote, ~ separates (place_of quote) QUOTE).
  { intros quote [[_ [H|H]]|[_ H]]; discriminate. }
  induction l as [|c|c d r IH1 IH2] using bytes_ind2; intro quote.
  - exists [], []. split; auto. split; auto. split; [apply no_sep_nil|left; auto].
  - cbn [find_command_end]. destruct (ceq c QUOTE) eqn:E1; [apply ceq_true in E1; subst; apply LAST; auto|].
    destruct quote; [apply LAST; apply NI|].
    destruct (ceq c ">") eqn:E2; [apply ceq_true in E2; subst; apply LAST; intros [[_ [H|H]]|[H _]]; discriminate|].
    destruct (ceq c "^") eqn:E3; [apply ceq_true in E3; subst; apply LAST; intros [[_ [H|H]]|[H _]]; discriminate|].
    destruct (is_sep c) eqn:E4.
    + exists [], [c]. split; auto. split; auto. split; [apply no_sep_nil|]. right. exists c, []. split; auto.
      left. split; auto. apply is_sep_iff; auto.
    + apply LAST. intro H. apply separates_sep in H. congruence.
  - destruct (ceq c QUOTE) eqn:E1.
    { cbn [find_command_end]. rewrite E1. apply ceq_true in E1; subst.
      change (exists k t, QUOTE :: d :: r = k ++ t /\ S (find_command_end (negb quote) (d :: r)) = length k /\
        no_sep_from (place_of quote) k /\ ended (place_of quote) k t).
      destruct (IH2 (negb quote)) as (c' & tail & H1 & H2 & H3 & H4).
      apply (STEP quote QUOTE c' tail); auto; destruct quote; auto. }
    assert (NQ : Ascii.eqb c DQ = false) by exact E1.
    destruct quote.
    { assert (FE : find_command_end true (c :: d :: r) = S (find_command_end true (d :: r))).
      { cbn [find_command_end]. rewrite E1. reflexivity. }
      rewrite FE. destruct (IH2 true) as (c' & tail & H1 & H2 & H3 & H4).
      apply (STEP true c c' tail); auto; cbn [place_of step]; rewrite NQ; auto. }
    destruct (ceq c ">") eqn:E2.
    { apply ceq_true in E2; subst. destruct (ceq d "&") eqn:E3.
      - assert (FE : find_command_end false (">"%char :: d :: r) = S (S (find_command_end false r))).
        { cbn [find_command_end]. change (ceq ">" QUOTE) with false. change (ceq ">" ">") with true.
          cbv iota. rewrite E3. reflexivity. }
        rewrite FE. apply ceq_true in E3; subst. destruct (IH1 false) as (c' & tail & H1 & H2 & H3 & H4).
        exists (">"%char :: "&"%char :: c'), tail. split; [rewrite H1; auto|]. split; [rewrite H2; auto|].
        split; [|exact H4]. apply no_sep_cons. split; [intros [[_ [H|H]]|[H _]]; discriminate|].
        apply no_sep_cons. split; [intros [[H _]|[_ H]]; discriminate|]. exact H3.
      - assert (FE : find_command_end false (">"%char :: d :: r) = S (find_command_end false (d :: r))).
        { change (find_command_end false (">"%char :: d :: r)) with
            (if ceq d "&" then S (S (find_command_end false r)) else S (find_command_end false (d :: r))).
          rewrite E3. reflexivity. }
        rewrite FE. apply ceq_false in E3. destruct (IH2 false) as (c' & tail & H1 & H2 & H3 & H4).
        apply (STEP false ">"%char c' tail); auto.
        + intros [[_ [H|H]]|[H _]]; discriminate.
        + change (step (place_of false) ">") with Redirect. destruct c' as [|x c']; [apply no_sep_nil|].
          cbn [app] in H1. injection H1 as <- _. apply redirect_outside; auto.
        + change (step (place_of false) ">") with Redirect. destruct c' as [|x c'].
          * cbn [app] in H1. destruct H4 as [->|(x & t & -> & S)]; [left; auto|right]. exists x, t. split; auto.
            injection H1 as -> _. right. split; auto. cbn in S. unfold separates in S. intuition congruence.
          * cbn [app] in H1. injection H1 as <- _. destruct H4 as [->|(x & t & -> & S)]; [left; auto|right].
            exists x, t. split; auto. rewrite (proj2 (redirect_outside d c' E3)). exact S. }
    destruct (ceq c "^") eqn:E3.
    { assert (FE : find_command_end false (c :: d :: r) = S (S (find_command_end false r))).
      { cbn [find_command_end]. rewrite E1, E2, E3. reflexivity. }
      rewrite FE. apply ceq_true in E3; subst. destruct (IH1 false) as (c' & tail & H1 & H2 & H3 & H4).
      exists ("^"%char :: d :: c'), tail. split; [rewrite H1; auto|]. split; [rewrite H2; auto|].
      split; [|exact H4]. apply no_sep_cons. split; [intros [[_ [H|H]]|[H _]]; discriminate|].
      apply no_sep_cons. split; [intros [[H _]|[H _]]; discriminate|]. exact H3. }
    destruct (is_sep c) eqn:E4.
    + exists [], (c :: d :: r). split; auto. split; [cbn [find_command_end]; rewrite E1, E2, E3, E4; auto|].
      split; [apply no_sep_nil|]. right. exists c, (d :: r). split; auto. left. split; auto. apply is_sep_iff; auto.
    + assert (FE : find_command_end false (c :: d :: r) = S (find_command_end false (d :: r))).
      { cbn [find_command_end]. rewrite E1, E2, E3, E4. reflexivity. }
      rewrite FE. destruct (IH2 false) as (c' & tail & H1 & H2 & H3 & H4).
      assert (ST : step (place_of false) c = Outside).
      { cbn [place_of step]. unfold plain_step. unfold ceq in E2, E3. rewrite NQ, E2, E3. reflexivity. }
      apply (STEP false c c' tail); auto; [|rewrite ST; auto|rewrite ST; auto].
      intro H. apply separates_sep in H. congruence.
Qed.

Lemma fce_exact c tail : no_sep_from Outside c -> ended Outside c tail -> find_command_end false (c ++ tail) = length c.
Proof.
  intros N D. destruct (fce_cut (c ++ tail) false) as (c' & tail' & E & H & N' & D').
  destruct (cut_unique _ _ _ _ _ E N D N' D') as [-> _]. exact H.
Qed.

(** Text without quotes, ^ and > keeps us outside. *)
Definition plain_text (l : bytes) : Prop := forall c, In c l -> c <> DQ /\ c <> "^"%char /\ c <> ">"%char.
Lemma at_plain l : plain_text l -> at_from Outside l = Outside.
Proof.
  induction l as [|c l IH]; intro H; [reflexivity|]. cbn [at_from fold_left step].
  destruct (H c (or_introl eq_refl)) as (H1 & H2 & H3). unfold plain_step.
  apply Ascii.eqb_neq in H1, H2, H3. rewrite H1, H2, H3. apply IH. intros x Hx. apply H; right; auto.
Qed.
