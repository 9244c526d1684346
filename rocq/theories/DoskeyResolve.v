(** resolve of DoskeyModel against DoskeySpec. *)
From Verif Require Import Base DoskeyModel DoskeySpec DoskeyProofs DoskeyName.

(** ** Macro names *)

(** A name's end: no spaces before it, and a space (or, if relaxed, a separator) or nothing at it. *)
Definition stops (relaxed : bool) (r : bytes) : Prop :=
  r = [] \/ exists c t, r = c :: t /\ (c = SPC \/ (relaxed = true /\ is_sep c = true)).

Lemma name_end_cut relaxed l : exists tok r,
  l = tok ++ r /\ name_end relaxed l = length tok /\ ~ In SPC tok /\ stops relaxed r.
Proof.
  assert (STEP : forall c r n tok t, c <> SPC -> r = tok ++ t -> n = length tok -> ~ In SPC tok -> stops relaxed t ->
    exists tok r', c :: r = tok ++ r' /\ S n = length tok /\ ~ In SPC tok /\ stops relaxed r').
  { intros c r n tok t H -> -> N S. exists (c :: tok), t. split; auto. split; auto. split; auto.
    intros [K|K]; auto. }
  induction l as [|c|c d r IH1 IH2] using bytes_ind2.
  - exists [], []. split; auto. split; auto. split; auto. left; auto.
  - cbn [name_end]. destruct (ceq c ">") eqn:E.
    + apply ceq_true in E; subst. apply (STEP _ _ 0 [] []); auto; [discriminate|left; auto].
    + destruct (ceq c SPC || (relaxed && is_sep c)) eqn:E2.
      * exists [], [c]. split; auto. split; auto. split; auto. right. exists c, []. split; auto.
        apply orb_true_iff in E2. rewrite ceq_true, andb_true_iff in E2. exact E2.
      * apply orb_false_iff in E2 as [E2 _]. apply ceq_false in E2. apply (STEP _ _ 0 [] []); auto. left; auto.
  - destruct (ceq c ">") eqn:E.
    + apply ceq_true in E; subst. destruct (ceq d "&") eqn:E3.
      * assert (FE : name_end relaxed (">"%char :: d :: r) = S (S (name_end relaxed r))).
        { cbn [name_end]. change (ceq ">" ">") with true. cbv iota. rewrite E3. reflexivity. }
        rewrite FE. apply ceq_true in E3; subst. destruct IH1 as (tok & t & -> & H2 & H3 & H4).
        exists (">"%char :: "&"%char :: tok), t. split; auto. split; [rewrite H2; auto|]. split; auto.
        intros [K|[K|K]]; [discriminate|discriminate|auto].
      * assert (FE : name_end relaxed (">"%char :: d :: r) = S (name_end relaxed (d :: r))).
        { change (name_end relaxed (">"%char :: d :: r)) with
            (if ceq d "&" then S (S (name_end relaxed r)) else S (name_end relaxed (d :: r))).
          rewrite E3. reflexivity. }
        rewrite FE. destruct IH2 as (tok & t & H1 & H2 & H3 & H4). apply (STEP _ _ _ tok t); auto. discriminate.
    + destruct (ceq c SPC || (relaxed && is_sep c)) eqn:E2.
      * exists [], (c :: d :: r). split; auto. split; [cbn [name_end]; rewrite E, E2; auto|]. split; auto. right.
        exists c, (d :: r). split; auto. apply orb_true_iff in E2. rewrite ceq_true, andb_true_iff in E2. exact E2.
      * assert (FE : name_end relaxed (c :: d :: r) = S (name_end relaxed (d :: r))).
        { cbn [name_end]. rewrite E, E2. reflexivity. }
        rewrite FE. apply orb_false_iff in E2 as [E2 _]. apply ceq_false in E2.
        destruct IH2 as (tok & t & H1 & H2 & H3 & H4). apply (STEP _ _ _ tok t); auto.
Qed.

(** A text without spaces, separators and > goes on to where it stops. *)
Lemma name_end_exact relaxed tok r :
  (forall c, In c tok -> c <> SPC /\ c <> ">"%char /\ (relaxed = true -> is_sep c = false)) -> stops relaxed r ->
  name_end relaxed (tok ++ r) = length tok.
Proof.
  intros H S. induction tok as [|c tok IH]; cbn [app length].
  - destruct S as [->|(c & t & -> & [->|[-> E]])]; [reflexivity|reflexivity|].
    cbn [name_end]. rewrite E. replace (ceq c ">") with false; [rewrite orb_true_r; reflexivity|].
    symmetry. apply ceq_false. intros ->. discriminate.
  - destruct (H c (or_introl eq_refl)) as (H1 & H2 & H3). cbn [name_end].
    apply ceq_false in H1, H2. rewrite H1, H2. replace (relaxed && is_sep c) with false.
    + cbn [orb]. rewrite IH; auto. intros x Hx. apply H; right; auto.
    + destruct relaxed; [rewrite H3 by auto; reflexivity|reflexivity].
Qed.

(** Not relaxed, a name ends at the first space only. *)
Lemma name_end_space tok r : ~ In SPC tok -> stops false r -> name_end false (tok ++ r) = length tok.
Proof.
  intros N S. destruct (name_end_cut false (tok ++ r)) as (tok' & r' & E & H & N' & S'). rewrite H. clear H.
  assert (G : forall a b c d, a ++ b = c ++ d -> ~ In SPC c -> stops false b -> length c <= length a).
  { clear. induction a as [|x a IH]; intros b c d E N S.
    - cbn [app] in E. subst b. destruct c as [|y c]; [auto|]. exfalso. destruct S as [S|(z & t & S & [->|[? _]])]; try discriminate.
      injection S as -> _. apply N; left; auto.
    - destruct c as [|y c]; cbn [length]; [lia|]. cbn [app] in E. injection E as <- E. apply le_n_S.
      apply (IH b c d E); auto. intro K; apply N; right; auto. }
  pose proof (G _ _ _ _ E N' S). pose proof (G _ _ _ _ (eq_sym E) N S'). lia.
Qed.

Section Lookup.
Variable lookup : bytes -> option bytes.

Definition no_paren_names : Prop := forall r, lookup ("("%char :: r) = None.

Lemma skip_parens_opened l : no_paren_names ->
  exists p start, l = p ++ start /\ opened l p /\ skip_leading_parens lookup l = (start, count "(" p).
Proof.
  intro NP.
  assert (E : skip_leading_parens lookup l = skip_loop l l 0).
  { unfold skip_leading_parens. destruct l as [|c l]; auto. destruct (ceq c "(") eqn:E; auto. cbn [andb].
    apply ceq_true in E; subst. unfold is_alias_word. cbn [alias_word].
    change (ceq "(" SPC || ceq "(" TAB) with false. cbv iota. rewrite NP. reflexivity. }
  rewrite E. destruct (skip_loop_opened l l 0) as (p & O & H1 & H2).
  exists p, (fst (skip_loop l l 0)). split; [|split; auto].
  - rewrite H1. destruct O as (_ & (r & ->) & _). destruct p; auto. rewrite skipn_app_exact by auto. reflexivity.
  - destruct (skip_loop l l 0). cbn [fst snd] in *. rewrite H2. reflexivity.
Qed.

Lemma calls_get relaxed c rest pre name close gap after text :
  no_paren_names ->
  c = pre ++ name ++ close ++ gap ++ after ->
  opened (c ++ rest) pre -> closed (count "(" pre) (name ++ close) name close ->
  name <> [] -> ~ In SPC (name ++ close) -> blank gap -> (forall r, after ++ rest <> SPC :: r) ->
  name_end relaxed ((name ++ close) ++ gap ++ after ++ rest) = length (name ++ close) ->
  lookup name = Some text ->
  get_alias1 lookup relaxed (c ++ rest) = Some (mkfound (length pre) text (count "(" pre) (after ++ rest)).
Proof.
  intros NP -> O C NN NS B HA NE L. unfold get_alias1.
  destruct (skip_parens_opened ((pre ++ name ++ close ++ gap ++ after) ++ rest) NP) as (p & start & E & O' & SK).
  rewrite (opened_unique _ _ _ O' O) in *. rewrite SK.
  rewrite <- !app_assoc in E. apply app_inv_head in E.
  replace (name ++ close ++ gap ++ after ++ rest) with ((name ++ close) ++ gap ++ after ++ rest) in E
    by (rewrite <- !app_assoc; reflexivity).
  rewrite <- E. destruct name as [|x name]; [congruence|]. cbn [app].
  replace (ceq x SPC) with false by (symmetry; apply ceq_false; intros ->; apply NS; left; auto).
  change (x :: (name ++ close) ++ gap ++ after ++ rest) with (((x :: name) ++ close) ++ gap ++ after ++ rest).
  rewrite NE. rewrite (firstn_app_exact ((x :: name) ++ close) _ (length ((x :: name) ++ close))) by reflexivity.
  rewrite skipn_app_exact by reflexivity.
  rewrite (trim_exact _ _ _ _ C).
  rewrite <- (app_assoc (x :: name)). rewrite firstn_app_exact by reflexivity. rewrite L.
  cbv iota. f_equal. f_equal.
  - rewrite !app_length. cbn [length]. rewrite !app_length. lia.
  - apply skip_spaces_blank; auto.
Qed.

Lemma get_inv relaxed l f : no_paren_names -> get_alias1 lookup relaxed l = Some f ->
  exists pre name close r,
    l = pre ++ (name ++ close) ++ r /\ opened l pre /\ closed (count "(" pre) (name ++ close) name close /\
    name <> [] /\ ~ In SPC (name ++ close) /\ stops relaxed r /\
    name_end relaxed ((name ++ close) ++ r) = length (name ++ close) /\
    lookup name = Some (f_text f) /\ f = mkfound (length pre) (f_text f) (count "(" pre) (skip_spaces r).
Proof.
  intros NP. unfold get_alias1. destruct (skip_parens_opened l NP) as (p & start & E & O & ->).
  destruct start as [|x start']; [discriminate|]. remember (x :: start') as start eqn:SE.
  destruct (ceq x SPC); [discriminate|]. cbv zeta.
  destruct (name_end_cut relaxed start) as (tok & r & E2 & NE & NS & ST). rewrite NE.
  rewrite E2. rewrite (firstn_app_exact tok r (length tok)) by reflexivity. rewrite skipn_app_exact by reflexivity.
  pose proof (trim_closed tok (count "(" p)) as C.
  set (k := trim_trailing_parens tok (count "(" p)) in *.
  assert (TE : tok = firstn k tok ++ skipn k tok) by (symmetry; apply firstn_skipn).
  assert (K : k <= length tok).
  { unfold k. rewrite (trim_exact _ _ _ _ C). rewrite firstn_length. lia. }
  rewrite firstn_app. replace (k - length tok) with 0 by lia. cbn [firstn]. rewrite app_nil_r.
  destruct (firstn k tok) as [|y nm] eqn:NM; [discriminate|].
  destruct (lookup (y :: nm)) as [text|] eqn:L; [|discriminate]. intro H. injection H as <-. cbn [f_text].
  exists p, (y :: nm), (skipn k tok), r. rewrite <- TE.
  split; [rewrite <- E2; exact E|]. split; auto. split; auto. split; [discriminate|]. split; auto. split; auto.
  split; [rewrite <- E2; exact NE|]. split; auto. f_equal.
  rewrite E, E2, !app_length. lia.
Qed.

(** ** One line, not relaxed *)

Lemma calls_iff c : no_paren_names -> forall pre text after,
  (exists name close, calls lookup c pre name close after text) <->
  (opened c pre /\ get_alias1 lookup false c = Some (mkfound (length pre) text (count "(" pre) after)).
Proof.
  intros NP pre text after. split.
  - intros (name & close & gap & E & O & C & NN & NS & B & G & A & L). split; auto.
    rewrite <- (app_nil_r c). rewrite <- (app_nil_r after).
    apply (calls_get false c [] pre name close gap after text); auto.
    + rewrite app_nil_r; auto.
    + rewrite app_nil_r; auto.
    + rewrite app_nil_r. apply name_end_space; auto.
      destruct gap as [|x gap]; [rewrite G by auto; left; auto|]. right. exists x, (gap ++ after). split; auto.
      left. exact (Forall_inv B).
  - intros [O H]. destruct (get_inv false c _ NP H) as (pre' & name & close & r & E & O' & C & NN & NS & ST & _ & L & F).
    rewrite (opened_unique _ _ _ O' O) in *. cbn [f_text] in *.
    assert (after = skip_spaces r) as -> by (injection F; auto).
    destruct (skip_spaces_split r) as (gap & G & B & A).
    exists name, close, gap. split; [rewrite E, <- G, <- app_assoc; auto|]. split; auto. split; auto. split; auto. split; auto.
    split; auto. split; [|split; auto].
    intros ->. cbn [app] in G. rewrite <- G. destruct ST as [->|(x & t & -> & [->|[? _]])]; [auto| |discriminate].
    exfalso. eapply A. rewrite <- G. reflexivity.
Qed.

(** ** A command within a line *)

Lemma ordinary_no_paren : ordinary lookup -> no_paren_names.
Proof.
  intros O r. destruct (lookup ("("%char :: r)) eqn:E; auto. exfalso. eapply (proj2 (O _ _ E)). reflexivity.
Qed.

Definition special (c : byte) : Prop := In c (lit "|&^>" ++ [DQ]).
Lemma special_sep c : is_sep c = true -> special c.
Proof.
  intro H. apply is_sep_iff in H. unfold special. cbn [lit list_ascii_of_string app In]. destruct H as [->| ->]; auto.
Qed.
Lemma special_plain c : ~ special c -> c <> DQ /\ c <> "^"%char /\ c <> ">"%char.
Proof.
  unfold special. cbn [lit list_ascii_of_string app In]. intro H.
  split; [|split]; intros ->; apply H; auto 8.
Qed.
Lemma close_not_special c : In c (lit " )") -> ~ special c.
Proof.
  cbn [lit list_ascii_of_string In]. intros [<-|[<-|[]]]; intro H; apply inb_iff in H; discriminate.
Qed.
Lemma open_not_special c : In c (lit " @(") -> ~ special c.
Proof.
  cbn [lit list_ascii_of_string In]. intros [<-|[<-|[<-|[]]]]; intro H; apply inb_iff in H; discriminate.
Qed.

Lemma opening_chars p : opening p -> Forall (fun c => In c (lit " @(")) p.
Proof.
  intros [->|(q & F & E)]; [constructor|].
  destruct E as [->|[->| ->]]; apply Forall_app; (split; [auto|]); apply Forall_forall; intros x Hx;
    cbn [lit list_ascii_of_string In] in *; tauto.
Qed.

Lemma opened_local c tail p : (tail = [] \/ exists x t, tail = x :: t /\ is_sep x = true) ->
  opened c p -> opened (c ++ tail) p.
Proof.
  intros T (O & (r & ->) & M). split; auto. split; [exists (r ++ tail); rewrite app_assoc; auto|].
  intros p' r' E O'. destruct T as [->|(x & t & -> & X)]; [rewrite app_nil_r in E; eauto|].
  assert (exists r0, p ++ r = p' ++ r0) as [r0 E0]; [|eauto].
  pose proof (opening_chars _ O') as F. clear M O O'. revert E. generalize (p ++ r) as c. revert F.
  induction p' as [|y p' IH]; intros F c E; cbn [app] in *; [eauto|].
  destruct c as [|z c]; cbn [app] in E.
  - injection E as <- E. exfalso. apply Forall_inv in F. apply open_not_special in F. apply F, special_sep, X.
  - injection E as <- E. destruct (IH (Forall_inv_tail F) c E) as [r0 ->]. eauto.
Qed.

Section Local.
Hypothesis ord : ordinary lookup.

Lemma token_plain n name close text : closed n (name ++ close) name close -> lookup name = Some text ->
  forall c, In c (name ++ close) -> ~ special c.
Proof.
  intros (_ & (F & _) & _) L c H. apply in_app_or in H as [H|H].
  - exact (proj1 (ord _ _ L) c H).
  - apply close_not_special. rewrite Forall_forall in F. auto.
Qed.

Lemma get_alias_local c tail : no_sep_from Outside c -> ended Outside c tail ->
  get_alias lookup true (c ++ tail) =
  match get_alias1 lookup false c with
  | Some f => Some (mkfound (f_skipped f) (f_text f) (f_parens f) (f_in f ++ tail))
  | None => None
  end.
Proof.
  intros NS EN. pose proof (ordinary_no_paren ord) as NP.
  assert (T : tail = [] \/ exists x t, tail = x :: t /\ is_sep x = true).
  { destruct EN as [->|(x & t & -> & S)]; [auto|right]. exists x, t. split; auto. eapply separates_sep; eauto. }
  assert (TN : forall r, tail <> SPC :: r).
  { intros r ->. destruct T as [T|(x & t & T & X)]; [discriminate|]. injection T as <- _. discriminate. }
  destruct (get_alias1 lookup false c) as [f|] eqn:G.
  - destruct (get_inv false c f NP G) as (pre & name & close & r & E & O & C & NN & NSP & ST & _ & L & F).
    pose proof (token_plain _ _ _ _ C L) as PL.
    destruct (skip_spaces_split r) as (gap & GR & B & A).
    assert (EC : c = pre ++ name ++ close ++ gap ++ skip_spaces r) by (rewrite E, <- GR, <- app_assoc; auto).
    assert (A' : forall r', skip_spaces r ++ tail <> SPC :: r').
    { intros r' H. destruct (skip_spaces r) as [|y s]; cbn [app] in H; [eapply TN; eauto|].
      injection H as -> _. eapply A; reflexivity. }
    assert (GET : forall rx, name_end rx ((name ++ close) ++ gap ++ skip_spaces r ++ tail) = length (name ++ close) ->
       get_alias1 lookup rx (c ++ tail) = Some (mkfound (length pre) (f_text f) (count "(" pre) (skip_spaces r ++ tail))).
    { intros rx NE. apply (calls_get rx c tail pre name close gap (skip_spaces r) (f_text f)); auto.
      apply opened_local; auto. }
    assert (PN : forall rx c0, In c0 (name ++ close) -> c0 <> SPC /\ c0 <> ">"%char /\ (rx = true -> is_sep c0 = false)).
    { intros rx c0 H. specialize (PL c0 H). split; [intros ->; auto|]. split; [apply special_plain; auto|].
      intros _. destruct (is_sep c0) eqn:X; auto. exfalso. apply PL, special_sep, X. }
    rewrite F. cbn [f_skipped f_text f_parens f_in]. unfold get_alias.
    destruct ST as [->|(x & t & -> & [->|[? _]])]; [| |discriminate].
    + cbn [skip_spaces app] in *. assert (gap = []) as -> by (destruct gap; [auto|discriminate]).
      destruct T as [->|(x & t & -> & X)].
      * rewrite GET; auto. apply name_end_exact; [apply PN|left; auto].
      * destruct (get_alias1 lookup false (c ++ x :: t)) as [f'|] eqn:G'.
        -- exfalso.
           destruct (get_inv false _ _ NP G') as (pre' & name' & close' & r' & E' & O' & C' & _ & NSP' & ST' & NE' & L' & _).
           pose proof (opened_local c (x :: t) pre (or_intror (ex_intro _ x (ex_intro _ t (conj eq_refl X)))) O) as O2.
           rewrite (opened_unique _ _ _ O' O2) in *.
           assert (EE : (name' ++ close') ++ r' = (name ++ close) ++ x :: t).
           { rewrite E in E'. rewrite app_nil_r in E'. rewrite <- app_assoc in E'. apply app_inv_head in E'. auto. }
           pose proof (token_plain _ _ _ _ C' L') as PL'.
           assert (LEN : length (name' ++ close') <= length (name ++ close)).
           { clear - EE PL' X. revert EE PL'. generalize (name' ++ close') as u. generalize (name ++ close) as w.
             induction w as [|a w IH]; intros [|b u] EE PL'; cbn [length app] in *; try lia.
             - injection EE as -> _. exfalso. apply (PL' x (or_introl eq_refl)), special_sep, X.
             - injection EE as -> EE. apply le_n_S, (IH u EE). intros c H. apply PL'; right; auto. }
           assert (exists z, r' = z ++ x :: t /\ name ++ close = (name' ++ close') ++ z) as (z & -> & ZE).
           { exists (skipn (length (name' ++ close')) (name ++ close)).
             assert (K : skipn (length (name' ++ close')) ((name' ++ close') ++ r') =
                         skipn (length (name' ++ close')) ((name ++ close) ++ x :: t)) by (rewrite EE; auto).
             rewrite skipn_app_exact in K by auto. rewrite skipn_app in K.
             replace (length (name' ++ close') - length (name ++ close)) with 0 in K by lia. cbn [skipn] in K.
             split; auto.
             assert (K2 : firstn (length (name' ++ close')) ((name' ++ close') ++ r') =
                         firstn (length (name' ++ close')) ((name ++ close) ++ x :: t)) by (rewrite EE; auto).
             rewrite firstn_app_exact in K2 by auto. rewrite firstn_app in K2.
             replace (length (name' ++ close') - length (name ++ close)) with 0 in K2 by lia. cbn [firstn] in K2.
             rewrite app_nil_r in K2. rewrite K2 at 1. symmetry; apply firstn_skipn. }
           destruct ST' as [ST'|(y & s & ST' & [->|[? _]])]; [destruct z; discriminate| |discriminate].
           destruct z as [|w z]; cbn [app] in ST'.
           ++ injection ST' as -> _. discriminate.
           ++ injection ST' as -> _. apply NSP. rewrite ZE. apply in_or_app. right. left; auto.
        -- rewrite GET; auto. apply name_end_exact; [apply PN|]. right. exists x, t. split; auto.
    + rewrite GET; auto. apply name_end_exact; [apply PN|].
      destruct gap as [|g gap].
      * exfalso. cbn [app] in GR. eapply A. rewrite <- GR. reflexivity.
      * right. exists SPC, (gap ++ skip_spaces (SPC :: t) ++ tail). split; [|auto].
        cbn [app] in GR. injection GR as <- _. reflexivity.
  - assert (NO : forall rx, get_alias1 lookup rx (c ++ tail) = None).
    { intro rx. destruct (get_alias1 lookup rx (c ++ tail)) as [f'|] eqn:G'; auto. exfalso.
      destruct (get_inv rx _ _ NP G') as (pre & name & close & r & E & O & C & NN & NSP & ST & NE & L & _).
      pose proof (token_plain _ _ _ _ C L) as PL.
      destruct (skip_parens_opened c NP) as (pc & sc & EC & OC & _).
      rewrite (opened_unique _ _ _ O (opened_local c tail pc T OC)) in *. clear O.
      assert (EE : (name ++ close) ++ r = sc ++ tail).
      { rewrite EC, <- app_assoc in E. apply app_inv_head in E. auto. }
      assert (LEN : length (name ++ close) <= length sc).
      { destruct T as [->|(x & t & -> & X)].
        - rewrite app_nil_r in EE. apply (f_equal (@length byte)) in EE. rewrite app_length in EE. lia.
        - clear - EE PL X. revert EE PL. generalize (name ++ close) as u.
          induction sc as [|a w IH]; intros [|b u] EE PL'; cbn [length app] in *; try lia.
          + injection EE as -> _. exfalso. apply (PL' x (or_introl eq_refl)), special_sep, X.
          + injection EE as -> EE. apply le_n_S, (IH u EE). intros c H. apply PL'; right; auto. }
      assert (exists z, r = z ++ tail /\ sc = (name ++ close) ++ z) as (z & -> & ZE).
      { exists (skipn (length (name ++ close)) sc).
        assert (K : skipn (length (name ++ close)) ((name ++ close) ++ r) =
                    skipn (length (name ++ close)) (sc ++ tail)) by (rewrite EE; auto).
        rewrite skipn_app_exact in K by auto. rewrite skipn_app in K.
        replace (length (name ++ close) - length sc) with 0 in K by lia. cbn [skipn] in K.
        split; auto.
        assert (K2 : firstn (length (name ++ close)) ((name ++ close) ++ r) =
                    firstn (length (name ++ close)) (sc ++ tail)) by (rewrite EE; auto).
        rewrite firstn_app_exact in K2 by auto. rewrite firstn_app in K2.
        replace (length (name ++ close) - length sc) with 0 in K2 by lia. cbn [firstn] in K2.
        rewrite app_nil_r in K2. rewrite K2 at 1. symmetry; apply firstn_skipn. }
      assert (ST2 : stops false z).
      { destruct z as [|y z]; [left; auto|]. right. exists y, z. split; auto.
        destruct ST as [ST|(y' & s & ST & SS)]; [discriminate|]. cbn [app] in ST. injection ST as <- _.
        destruct SS as [->|[_ SY]]; [auto|]. exfalso.
        apply (NS (pc ++ name ++ close) y z).
        - rewrite EC, ZE, <- !app_assoc. reflexivity.
        - rewrite at_plain.
          + left. split; auto. apply is_sep_iff; auto.
          + intros c0 H. apply special_plain. apply in_app_or in H as [H|H]; [|auto].
            apply open_not_special. destruct OC as (OP & _). apply opening_chars in OP. rewrite Forall_forall in OP. auto. }
      destruct (skip_spaces_split z) as (gap & GR & B & A).
      assert (get_alias1 lookup false (c ++ []) =
              Some (mkfound (length pc) (f_text f') (count "(" pc) (skip_spaces z ++ []))) as K.
      { apply (calls_get false c [] pc name close gap (skip_spaces z) (f_text f')); auto.
        - rewrite EC, ZE, <- GR, <- app_assoc. reflexivity.
        - rewrite app_nil_r; auto.
        - rewrite app_nil_r; auto.
        - rewrite app_nil_r. rewrite <- GR. apply name_end_space; auto. }
      rewrite app_nil_r in K. congruence. }
    unfold get_alias. rewrite !NO. reflexivity.
Qed.

(** ** Steps of resolve's loop *)

Lemma delims_exact ds l : Forall (fun y => y = "|"%char \/ y = "&"%char) ds ->
  (forall y r, l = y :: r -> y <> "|"%char /\ y <> "&"%char) -> delims (ds ++ l) = length ds.
Proof.
  intros F N. induction F as [|y ds H F IH]; cbn [app length].
  - destruct l as [|y l]; auto. cbn [delims]. destruct (is_sep y) eqn:E; auto. exfalso.
    destruct (N y l eq_refl). apply is_sep_iff in E. tauto.
  - cbn [delims]. apply is_sep_iff in H. rewrite H. f_equal. exact IH.
Qed.

Definition spaced (l : bytes) : nat := match l with c :: _ => if ceq c SPC then 1 else 0 | [] => 0 end.

Lemma ends_delims c d rest : ends c d rest ->
  exists n, n = delims (d ++ rest) /\
    firstn n (d ++ rest) ++ firstn (spaced (skipn n (d ++ rest))) (skipn n (d ++ rest)) = d /\
    skipn (spaced (skipn n (d ++ rest))) (skipn n (d ++ rest)) = rest.
Proof.
  intros [_ [[-> ->]|(x & ds & sp & -> & S & F & N & SP)]].
  - exists 0. auto.
  - exists (length (x :: ds)). rewrite <- app_assoc. rewrite delims_exact; [|constructor; auto|exact N].
    + split; auto. rewrite firstn_app_exact, skipn_app_exact by auto.
      destruct SP as [->|[-> SP]]; cbn [app spaced].
      * rewrite ceq_refl. cbn [firstn skipn]. auto.
      * replace (spaced rest) with 0; [cbn [firstn skipn]; rewrite app_nil_r; auto|].
        destruct rest as [|y r]; cbn [spaced]; auto. destruct (ceq y SPC) eqn:E; auto.
        apply ceq_true in E; subst. exfalso; eapply SP; reflexivity.
    + apply separates_sep in S. apply is_sep_iff; auto.
Qed.

Lemma ends_cut c d rest : ends c d rest -> no_sep_from Outside c /\ ended Outside c (d ++ rest).
Proof.
  intros [N [[-> ->]|(x & ds & sp & -> & S & _)]]; split; auto; [left; auto|].
  right. exists x, (ds ++ sp ++ rest). split; [cbn [app]; rewrite <- app_assoc; auto|exact S].
Qed.

Lemma loop_step k text out res o rest : text <> [] ->
  match resolve_impl lookup true text with
  | Some (o', rest') => o = o' /\ rest = rest' /\ res = true
  | None => o = firstn (find_command_end false text) text /\ rest = skipn (find_command_end false text) text /\ res = false
  end ->
  forall r0, resolve_loop lookup true (S k) text out r0 =
  resolve_loop lookup true k (skipn (spaced (skipn (delims rest) rest)) (skipn (delims rest) rest))
    (out ++ o ++ firstn (delims rest) rest ++ firstn (spaced (skipn (delims rest) rest)) (skipn (delims rest) rest))
    (res || r0).
Proof.
  intros N H r0. destruct text as [|c text]; [congruence|]. cbn [resolve_loop].
  destruct (resolve_impl lookup true (c :: text)) as [[o' rest']|].
  - destruct H as (-> & -> & ->). reflexivity.
  - destruct H as (-> & -> & ->). reflexivity.
Qed.

Lemma calls_open c pre name close after text : calls lookup c pre name close after text ->
  exists r, c = pre ++ r /\ opened c pre /\ get_alias1 lookup false c = Some (mkfound (length pre) text (count "(" pre) after).
Proof.
  intro C. assert (opened c pre /\ get_alias1 lookup false c = Some (mkfound (length pre) text (count "(" pre) after)) as [O G].
  { apply (calls_iff c (ordinary_no_paren ord)). eauto. }
  destruct O as (O1 & (r & E) & O2). exists r. split; auto. split; auto. split; eauto.
Qed.

Lemma calls_after c pre name close after text tail : calls lookup c pre name close after text ->
  no_sep_from Outside c -> ended Outside c tail ->
  find_command_end false (after ++ tail) = length after.
Proof.
  intros (gap & E & O & C & NN & NS & B & G & A & L) N EN.
  assert (P : at_from Outside (pre ++ name ++ close ++ gap) = Outside).
  { apply at_plain. intros c0 H. apply special_plain. apply in_app_or in H as [H|H].
    - apply open_not_special. destruct O as (OP & _). apply opening_chars in OP. rewrite Forall_forall in OP. auto.
    - rewrite app_assoc in H. apply in_app_or in H as [H|H]; [eapply token_plain; eauto|].
      unfold blank in B. rewrite Forall_forall in B. rewrite (B c0 H). apply close_not_special. left; reflexivity. }
  assert (E2 : c = (pre ++ name ++ close ++ gap) ++ after) by (rewrite E, <- !app_assoc; auto).
  apply fce_exact.
  - rewrite E2 in N. apply no_sep_app in N as [_ N]. rewrite P in N. exact N.
  - destruct EN as [->|(x & t & -> & S)]; [left; auto|right]. exists x, t. split; auto.
    rewrite E2, at_from_app, P in S. exact S.
Qed.

Lemma step_macro c pre name close after text body tail ws e d rest k out r0 :
  ends c d rest -> calls lookup c pre name close after text -> ~ quoted_arg text ->
  closed (count "(" pre) after body tail -> args_of true ws body ->
  expansion ws (match ws with [] => [] | _ => after end) text e ->
  resolve_loop lookup true (S k) (c ++ d ++ rest) out r0 = resolve_loop lookup true k rest (out ++ (pre ++ e) ++ d) true.
Proof.
  intros EN C Q CL AR EX. destruct (ends_cut _ _ _ EN) as [NS ED].
  destruct (calls_open _ _ _ _ _ _ C) as (r & ER & O & G).
  destruct (ends_delims _ _ _ EN) as (n & NE & ND & NR).
  assert (R : resolve_impl lookup true (c ++ d ++ rest) = Some (pre ++ e, d ++ rest)).
  { unfold resolve_impl. rewrite (get_alias_local c (d ++ rest)) by auto. rewrite G.
    cbn [f_skipped f_text f_parens f_in andb].
    assert (MS : may_split false text = true).
    { destruct (may_split false text) eqn:M; auto. exfalso. apply Q, may_split_iff, M. }
    rewrite MS. rewrite (calls_after c pre name close after text (d ++ rest)) by auto.
    cbv zeta iota. rewrite (firstn_app_exact after (d ++ rest) (length after)) by reflexivity.
    rewrite (skipn_app_exact after) by reflexivity. rewrite (trim_exact _ _ _ _ CL).
    replace (firstn (length body) (after ++ d ++ rest)) with body.
    2:{ destruct CL as (-> & _). rewrite <- app_assoc. rewrite firstn_app_exact; auto. }
    f_equal. f_equal.
    rewrite ER, <- app_assoc. rewrite firstn_app_exact by auto. f_equal.
    rewrite (args_collect true ws body AR 10). rewrite (expansion_expand _ _ _ _ EX).
    destruct (collect_args true 10 body) as [|a l] eqn:CA.
    - apply collect_nil in CA. rewrite (args_unique _ _ _ _ AR CA). reflexivity.
    - destruct ws as [|w ws]; [pose proof (proj2 (collect_nil true body) AR); congruence|].
      rewrite <- (app_nil_l after) at 1. rewrite skip_spaces_blank; [reflexivity|constructor|].
      destruct C as (gap & _ & _ & _ & _ & _ & _ & _ & A & _). exact A. }
  rewrite (loop_step k _ out true (pre ++ e) (d ++ rest)).
  - rewrite <- NE, NR, ND. reflexivity.
  - destruct C as (gap & E & _ & _ & NN & _). intro H. rewrite E in H.
    apply (f_equal (@length byte)) in H. rewrite !app_length in H. destruct name; [congruence|cbn in H; lia].
  - rewrite R. auto.
Qed.

Lemma step_same c d rest k out r0 : c ++ d ++ rest <> [] ->
  ends c d rest -> (forall pre name close after text, ~ calls lookup c pre name close after text) ->
  resolve_loop lookup true (S k) (c ++ d ++ rest) out r0 = resolve_loop lookup true k rest (out ++ c ++ d) r0.
Proof.
  intros NN EN NC. destruct (ends_cut _ _ _ EN) as [NS ED].
  destruct (ends_delims _ _ _ EN) as (n & NE & ND & NR).
  assert (G : get_alias1 lookup false c = None).
  { destruct (get_alias1 lookup false c) as [f|] eqn:G; auto. exfalso.
    pose proof (ordinary_no_paren ord) as NP.
    destruct (get_inv false c f NP G) as (pre & name & close & r & E & O & C & _ & _ & _ & _ & L & F).
    rewrite F in G. destruct (proj2 (calls_iff c NP pre (f_text f) (skip_spaces r)) (conj O G)) as (nm & cl & K).
    eapply NC; eauto. }
  assert (R : resolve_impl lookup true (c ++ d ++ rest) = None).
  { unfold resolve_impl. rewrite (get_alias_local c (d ++ rest)) by auto. rewrite G. reflexivity. }
  rewrite (loop_step k _ out false c (d ++ rest)); [|auto|].
  - rewrite <- NE, NR, ND. reflexivity.
  - rewrite R. rewrite fce_exact by auto. rewrite firstn_app_exact, skipn_app_exact by auto. auto.
Qed.

Lemma step_quoted c d rest o text k out r0 :
  ends c d rest -> quoted_arg text -> whole lookup true c (d ++ rest) o text ->
  resolve_loop lookup true (S (S k)) (c ++ d ++ rest) out r0 = Some (out ++ o, true).
Proof.
  intros EN Q (pre & name & close & after & ws & e & C & AR & EX & ->).
  destruct (ends_cut _ _ _ EN) as [NS ED].
  destruct (calls_open _ _ _ _ _ _ C) as (r & ER & O & G).
  assert (R : resolve_impl lookup true (c ++ d ++ rest) = Some (pre ++ e, [])).
  { unfold resolve_impl. rewrite (get_alias_local c (d ++ rest)) by auto. rewrite G.
    cbn [f_skipped f_text f_parens f_in andb].
    rewrite (proj2 (may_split_iff text) Q).
    rewrite skipn_all. f_equal. f_equal.
    rewrite ER, <- app_assoc. rewrite firstn_app_exact by auto. f_equal.
    rewrite (args_collect true ws _ AR 10). rewrite (expansion_expand _ _ _ _ EX).
    destruct (collect_args true 10 (after ++ d ++ rest)) as [|a l] eqn:CA.
    - apply collect_nil in CA. rewrite (args_unique _ _ _ _ AR CA). reflexivity.
    - destruct ws as [|w ws]; [pose proof (proj2 (collect_nil true _) AR); congruence|].
      rewrite firstn_all.
      rewrite <- (app_nil_l (after ++ d ++ rest)) at 1. rewrite skip_spaces_blank; [reflexivity|constructor|].
      destruct C as (gap & _ & _ & _ & _ & _ & _ & _ & A & _).
      intros r' H. destruct after as [|y after]; cbn [app] in H; [|injection H as -> _; eapply A; reflexivity].
      destruct ED as [ED|(x & t & ED & S)]; [rewrite ED in H; discriminate|].
      rewrite ED in H. injection H as -> _. apply separates_sep in S. discriminate. }
  rewrite (loop_step (S k) _ out true (pre ++ e) []).
  - cbn [delims skipn spaced firstn resolve_loop]. rewrite !app_nil_r. reflexivity.
  - destruct C as (gap & E & _ & _ & NN & _). intro H. rewrite E in H.
    apply (f_equal (@length byte)) in H. rewrite !app_length in H. destruct name; [congruence|cbn in H; lia].
  - rewrite R. auto.
Qed.

(** ** Lines *)

Lemma sep_run l : exists ds r, l = ds ++ r /\ Forall (fun y => y = "|"%char \/ y = "&"%char) ds /\
  (forall y t, r = y :: t -> y <> "|"%char /\ y <> "&"%char).
Proof.
  induction l as [|c l (ds & r & -> & F & N)].
  - exists [], []. split; auto. split; [constructor|discriminate].
  - destruct (is_sep c) eqn:E.
    + exists (c :: ds), r. split; auto. split; auto. constructor; auto. apply is_sep_iff; auto.
    + exists [], (c :: ds ++ r). split; auto. split; [constructor|]. intros y t H. injection H as <- _.
      apply is_sep_false in E. tauto.
Qed.

Lemma ends_exist l : exists c d rest, l = c ++ d ++ rest /\ ends c d rest /\ (l <> [] -> length rest < length l).
Proof.
  destruct (fce_cut l false) as (c & tail & -> & _ & N & D). cbn [place_of] in *.
  destruct D as [->|(x & t & -> & S)].
  - exists c, [], []. split; auto. split; [split; auto|]. intro H. rewrite app_nil_r in *. destruct c; [congruence|cbn; lia].
  - destruct (sep_run t) as (ds & r & -> & F & NX).
    assert (exists sp rest, r = sp ++ rest /\ (sp = [SPC] \/ (sp = [] /\ forall r, rest <> SPC :: r))) as (sp & rest & -> & SP).
    { destruct r as [|y r].
      - exists [], []. split; auto. right. split; auto. discriminate.
      - destruct (ceq y SPC) eqn:E.
        + apply ceq_true in E; subst. exists [SPC], r. auto.
        + apply ceq_false in E. exists [], (y :: r). split; auto. right. split; auto. intros r' H; injection H as -> _; auto. }
    exists c, ((x :: ds) ++ sp), rest. split; [cbn [app]; rewrite <- app_assoc; auto|]. split.
    + split; auto. right. exists x, ds, sp. auto.
    + intros _. rewrite !app_length. cbn [length]. rewrite !app_length. lia.
Qed.

Lemma command_cases c : (exists o b, becomes lookup c o b) \/
  exists pre name close after text, calls lookup c pre name close after text /\ quoted_arg text.
Proof.
  pose proof (ordinary_no_paren ord) as NP.
  destruct (get_alias1 lookup false c) as [f|] eqn:G.
  - destruct (get_inv false c f NP G) as (pre & name & close & r & E & O & C & _ & _ & _ & _ & L & F).
    rewrite F in G. destruct (proj2 (calls_iff c NP pre (f_text f) (skip_spaces r)) (conj O G)) as (nm & cl & K).
    destruct (may_split false (f_text f)) eqn:M.
    + left. destruct (args_exist true (firstn (trim_trailing_parens (skip_spaces r) (count "(" pre)) (skip_spaces r))) as [ws A].
      exists (pre ++ expand (firstn 10 ws) (match ws with [] => [] | _ => skip_spaces r end) (f_text f)), true.
      eapply b_macro; eauto.
      * rewrite <- may_split_iff. congruence.
      * apply trim_closed.
      * apply expand_expansion.
    + right. exists pre, nm, cl, (skip_spaces r), (f_text f). split; auto. apply may_split_iff; auto.
  - left. exists c, false. constructor. intros pre name close after text C.
    destruct (calls_open _ _ _ _ _ _ C) as (r & _ & _ & G'). congruence.
Qed.

Lemma line_exist : forall n l, length l <= n -> exists o b, line_becomes lookup l o b.
Proof.
  induction n as [|n IH]; intros l H.
  - destruct l; [|cbn in H; lia]. exists [], false. constructor.
  - destruct l as [|x l']; [exists [], false; constructor|].
    destruct (ends_exist (x :: l')) as (c & d & rest & E & EN & LT).
    specialize (LT ltac:(discriminate)).
    destruct (command_cases c) as [(o & b & B)|(pre & name & close & after & text & C & Q)].
    + destruct (IH rest) as (o2 & b2 & L2); [lia|]. rewrite E. exists (o ++ d ++ o2), (b || b2). econstructor; eauto.
    + destruct (args_exist true (after ++ d ++ rest)) as [ws A]. rewrite E.
      exists (pre ++ expand (firstn 10 ws) (match ws with [] => [] | _ => after ++ d ++ rest end) text), true.
      eapply l_quoted; eauto. exists pre, name, close, after, ws.
      exists (expand (firstn 10 ws) (match ws with [] => [] | _ => after ++ d ++ rest end) text).
      split; auto. split; auto. split; auto. apply expand_expansion.
Qed.

Lemma loop_line l o b : line_becomes lookup l o b -> forall k out r0, length l < k ->
  resolve_loop lookup true k l out r0 = Some (out ++ o, b || r0).
Proof.
  induction 1 as [|c d rest o out b b' EN B L IH|c d rest out text EN Q W]; intros k out0 r0 LT.
  - destruct k; [lia|]. cbn [resolve_loop]. rewrite app_nil_r. reflexivity.
  - destruct k as [|k]; [lia|].
    assert (GO : forall r1, c ++ d ++ rest <> [] -> resolve_loop lookup true k rest (out0 ++ o ++ d) r1 =
                 Some (out0 ++ o ++ d ++ out, b' || r1)).
    { intros r1 NE. rewrite IH; [rewrite <- !app_assoc; reflexivity|].
      destruct EN as [_ [[-> ->]|(x & ds & sp & -> & _)]].
      - destruct c; [cbn in NE; congruence|]. rewrite !app_length in LT. cbn in *. lia.
      - rewrite !app_length in LT. cbn in LT. lia. }
    assert (D : c ++ d ++ rest = [] \/ c ++ d ++ rest <> []) by (destruct (c ++ d ++ rest); [left|right]; congruence).
    destruct D as [D|D].
    + apply app_eq_nil in D as [-> D]. apply app_eq_nil in D as [-> ->].
      assert (o = [] /\ b = false) as [-> ->].
      { inversion B as [? ? ? ? ? ? ? ? ? ? C|]; subst; auto.
        exfalso. destruct C as (gap & E & _ & _ & NN & _). apply (f_equal (@length byte)) in E. rewrite !app_length in E.
        destruct name; [congruence|cbn in E; lia]. }
      cbn [app orb]. apply IH. exact LT.
    + inversion B as [? ? ? ? ? ? ? ? ? ? C NQ CL AR EX|? NC]; subst.
      * erewrite step_macro; eauto. rewrite GO by auto. destruct b'; reflexivity.
      * rewrite step_same by auto. rewrite GO by auto. reflexivity.
  - destruct k as [|[|k]]; [lia| |].
    + exfalso. destruct W as (pre & name & close & after & ws & e & (gap & E & _ & _ & NN & _) & _).
      rewrite !app_length in LT. rewrite E, !app_length in LT. destruct name; [congruence|cbn in LT; lia].
    + rewrite (step_quoted c d rest out text k out0 r0) by auto. reflexivity.
Qed.
End Local.
End Lookup.
