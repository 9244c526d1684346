(** Display characters: the iterator against the clusters of WcSpec. *)
From Verif Require Import Base UtfModel UtfSpec UtfProofs EscSpec EscProofs WcModel WcSpec.
Open Scope N_scope.

Lemma d8_shrinks t c r : d8 t = (c, r) -> c <> 0 -> exists u, t = u ++ r /\ u <> [].
Proof. intros E Hc. destruct d8_decoder as [H0 H]. destruct t as [|b t]; [rewrite H0 in E; injection E as <- <-; congruence|]. apply (H (b :: t) c r); [discriminate|exact E]. Qed.

Section Wc.
Variable emoji_on : bool.
Variable wcw : N -> Z.
Variables is_vs is_unq is_emo : N -> bool.
Hypothesis Hemo0 : is_emo 0 = false.
Hypothesis Hunq0 : is_unq 0 = false.
Notation consume := (consume is_vs is_unq is_emo).
Notation run := (run emoji_on wcw is_vs).
Notation wnext := (wnext emoji_on wcw is_vs is_unq is_emo).
Notation wspans := (wspans emoji_on wcw is_vs is_unq is_emo).
Notation glyphs := (glyphs emoji_on wcw is_vs is_unq is_emo).

Definition good (s : wst) : Prop := d8 (w_end s) = (w_next s, w_rest s).
Lemma good_reset t : good (wreset t).
Proof. unfold good, wreset. destruct (d8 t) as [c r] eqn:E. exact E. Qed.
Lemma good_adv s : good (wadv s).
Proof. unfold good, wadv. destruct (d8 (w_rest s)) as [c r] eqn:E. exact E. Qed.
Lemma adv_fields s : w_ptr (wadv s) = w_ptr s /\ w_end (wadv s) = w_rest s /\ w_wid (wadv s) = w_wid s /\ w_emo (wadv s) = w_emo s.
Proof. unfold wadv. destruct (d8 (w_rest s)). cbn. auto. Qed.
Lemma good_rest s : good s -> w_next s <> 0 -> exists u, w_end s = u ++ w_rest s /\ u <> [].
Proof. intros H Hn. exact (d8_shrinks _ _ _ H Hn). Qed.

(** ** on any bytes *)
Lemma consume_total fuel : forall s, good s -> (length (w_end s) < fuel)%nat -> exists s', consume fuel s = Some s' /\ good s' /\ w_ptr s' = w_ptr s /\ exists u, w_end s = u ++ w_end s'.
Proof.
  induction fuel as [|fuel IH]; intros s Hg Hf; [lia|]. cbn [WcModel.consume]. destruct (w_next s =? 0) eqn:E0; [exists s; split; [reflexivity|]; split; [exact Hg|]; split; [reflexivity|]; exists []; reflexivity|].
  destruct (good_rest s Hg ltac:(lia)) as (u & Eu & Hu). assert (Hl : (length (w_rest s) < length (w_end s))%nat) by (rewrite Eu, app_length; destruct u; [congruence|cbn; lia]).
  destruct (adv_fields s) as (A1 & A2 & A3 & A4).
  destruct (is_vs (w_next s)).
  - destruct (IH (wide (wadv s))) as (s' & E & Hg' & Hp & u' & Eu'); [exact (good_adv s)|cbn [wide set_wid w_end]; rewrite A2; lia|]. exists s'. split; [exact E|]. split; [exact Hg'|]. split; [rewrite Hp; exact A1|].
    exists (u ++ u'). rewrite Eu. cbn [wide set_wid w_end] in Eu'. rewrite A2 in Eu'. rewrite Eu', app_assoc. reflexivity.
  - destruct (w_next s =? 8205); [|exists s; split; [reflexivity|]; split; [exact Hg|]; split; [reflexivity|]; exists []; reflexivity].
    cbv zeta. destruct (_ && _ && _ && _) eqn:Ej.
    + exists (wide (wadv s)). split; [reflexivity|]. split; [exact (good_adv s)|]. split; [exact A1|]. exists u. cbn [wide set_wid w_end]. rewrite A2. exact Eu.
    + set (s1 := wide (wadv s)) in *. assert (Hg1 : good s1) by exact (good_adv s). assert (E1 : w_end s1 = w_rest s) by exact A2. assert (P1 : w_ptr s1 = w_ptr s) by exact A1. clearbody s1.
      assert (Hn : w_next s1 <> 0). { intro Hz. rewrite Hz, Hemo0, Hunq0 in Ej. discriminate. }
      destruct (good_rest s1 Hg1 Hn) as (v & Ev & Hv). destruct (adv_fields s1) as (B1 & B2 & B3 & B4).
      assert (Hl1 : (length (w_rest s1) < length (w_end s1))%nat) by (rewrite Ev, app_length; destruct v; [congruence|cbn; lia]).
      destruct (IH (wadv s1)) as (s' & E & Hg' & Hp & u' & Eu'); [exact (good_adv s1)|rewrite B2; rewrite E1 in Hl1; lia|]. exists s'. split; [exact E|]. split; [exact Hg'|]. split; [congruence|].
      exists (u ++ v ++ u'). rewrite Eu. rewrite <- E1, Ev. rewrite B2 in Eu'. rewrite Eu', <- !app_assoc. reflexivity.
Qed.
Lemma run_total fuel : forall s, good s -> (length (w_end s) < fuel)%nat -> exists s', run fuel s = Some s' /\ good s' /\ w_ptr s' = w_ptr s /\ exists u, w_end s = u ++ w_end s'.
Proof.
  induction fuel as [|fuel IH]; intros s Hg Hf; [lia|]. cbn [WcModel.run]. destruct (w_next s =? 0) eqn:E0; [exists s; split; [reflexivity|]; split; [exact Hg|]; split; [reflexivity|]; exists []; reflexivity|].
  destruct (good_rest s Hg ltac:(lia)) as (u & Eu & Hu). assert (Hl : (length (w_rest s) < length (w_end s))%nat) by (rewrite Eu, app_length; destruct u; [congruence|cbn; lia]).
  assert (X : forall s1, w_end s1 = w_end s -> w_rest s1 = w_rest s -> w_ptr s1 = w_ptr s -> exists s', run fuel (wadv s1) = Some s' /\ good s' /\ w_ptr s' = w_ptr s /\ exists u, w_end s = u ++ w_end s').
  { intros s1 X1 X2 X3. destruct (adv_fields s1) as (A1 & A2 & A3 & A4). destruct (IH (wadv s1)) as (s' & E & Hg' & Hp & u' & Eu'); [exact (good_adv s1)|rewrite A2, X2; lia|].
    exists s'. split; [exact E|]. split; [exact Hg'|]. split; [congruence|]. exists (u ++ u'). rewrite Eu. rewrite A2, X2 in Eu'. rewrite Eu', app_assoc. reflexivity. }
  destruct (negb _); [destruct (_ && _)|].
  - apply X; reflexivity.
  - exists s; split; [reflexivity|]; split; [exact Hg|]; split; [reflexivity|]; exists []; reflexivity.
  - apply X; reflexivity.
Qed.
Lemma wnext_total s : good s -> exists s', wnext s = Some (w_next s, s') /\ good s' /\ w_ptr s' = w_end s /\ exists u, w_end s = u ++ w_end s' /\ (u = [] <-> w_next s = 0).
Proof.
  intro Hg. unfold WcModel.wnext. cbv zeta. destruct (w_next s =? 0) eqn:E0.
  - eexists. split; [reflexivity|]. split; [exact Hg|]. split; [reflexivity|]. exists []. split; [reflexivity|]. split; [intros _; lia|reflexivity].
  - destruct (good_rest s Hg ltac:(lia)) as (u & Eu & Hu). assert (Hl : (length (w_rest s) < length (w_end s))%nat) by (rewrite Eu, app_length; destruct u; [congruence|cbn; lia]).
    set (s1 := set_wid _ _). assert (Hg1 : good s1) by (unfold s1; exact (good_adv (mkW (w_end s) (w_end s) (w_next s) (w_rest s) (w_wid s) false))).
    destruct (adv_fields (mkW (w_end s) (w_end s) (w_next s) (w_rest s) (w_wid s) false)) as (A1 & A2 & A3 & A4).
    assert (P1 : w_ptr s1 = w_end s) by exact A1. assert (R1 : w_end s1 = w_rest s) by exact A2. clearbody s1. clear A1 A2 A3 A4.
    assert (Fin : forall s', good s' -> w_ptr s' = w_ptr s1 -> (exists v, w_end s1 = v ++ w_end s') -> good s' /\ w_ptr s' = w_end s /\ exists u0, w_end s = u0 ++ w_end s' /\ (u0 = [] <-> w_next s = 0)).
    { intros s' G P [v V]. split; [exact G|]. split; [congruence|]. exists (u ++ v). split; [rewrite Eu, <- R1, V, app_assoc; reflexivity|]. split; [intro Hn; apply app_eq_nil in Hn as [-> _]; congruence|lia]. }
    assert (Self : forall s', good s' -> w_ptr s' = w_ptr s1 -> w_end s' = w_end s1 -> exists v, w_end s1 = v ++ w_end s') by (intros s' _ _ E; exists []; rewrite E; reflexivity).
    assert (FinC : forall s2, good s2 -> w_ptr s2 = w_ptr s1 -> (exists v, w_end s1 = v ++ w_end s2) -> exists s', match match consume (S (length (w_end s))) s2 with None => None | Some s => Some (set_emo s) end with None => None | Some s0 => Some (w_next s, s0) end = Some (w_next s, s') /\
       good s' /\ w_ptr s' = w_end s /\ exists u0, w_end s = u0 ++ w_end s' /\ (u0 = [] <-> w_next s = 0)).
    { intros s2 G P [v V]. destruct (consume_total (S (length (w_end s))) s2 G) as (s' & E & G' & P' & u' & U'); [rewrite <- R1, V, app_length in Hl; lia|]. rewrite E. exists (set_emo s'). split; [reflexivity|].
      apply Fin; [exact G'|cbn [set_emo w_ptr]; congruence|]. exists (v ++ u'). cbn [set_emo w_end]. rewrite V, U', app_assoc. reflexivity. }
    assert (FinR : exists s', match run (S (length (w_end s))) s1 with None => None | Some s0 => Some (w_next s, s0) end = Some (w_next s, s') /\ good s' /\ w_ptr s' = w_end s /\ exists u0, w_end s = u0 ++ w_end s' /\ (u0 = [] <-> w_next s = 0)).
    { destruct (run_total (S (length (w_end s))) s1 Hg1) as (s' & E & G' & P' & u' & U'); [rewrite R1; lia|]. rewrite E. exists s'. split; [reflexivity|]. apply Fin; [exact G'|exact P'|]. exists u'. exact U'. }
    destruct (wcw (w_next s) <? 0)%Z; [exists s1; split; [reflexivity|]; apply Fin; [exact Hg1|reflexivity|exists []; reflexivity]|].
    destruct (emoji_on && _); [|exact FinR].
    assert (Adv : w_next s1 <> 0 -> exists v, w_end s1 = v ++ w_rest s1) by (intro Hn; destruct (good_rest s1 Hg1 Hn) as (v & V & _); exists v; exact V).
    destruct (regional (w_next s) && regional (w_next s1)) eqn:Er.
    + set (s2 := set_wid 2 (set_emo s1)). exists (wadv s2). split; [reflexivity|]. destruct (adv_fields s2) as (A1 & A2 & A3 & A4). apply Fin; [exact (good_adv s2)|rewrite A1; reflexivity|]. rewrite A2. apply Adv. unfold regional in Er. lia.
    + destruct (is_unq (w_next s) || is_emo (w_next s)).
      * apply FinC; (destruct (is_unq (w_next s) && is_vs (w_next s1)); [|destruct (_ || _ || _ || _)]); try exact Hg1; try reflexivity; try (exists []; reflexivity).
        -- exact (good_adv s1).
        -- cbn [wide set_wid w_ptr]. apply (adv_fields s1).
        -- cbn [wide set_wid w_end]. destruct (adv_fields s1) as (_ & -> & _). destruct (N.eq_dec (w_next s1) 0) as [Hz|Hz]; [|exact (Adv Hz)].
           unfold good in Hg1. rewrite Hz in Hg1. destruct (w_end s1) as [|b x] eqn:Ex; [change (d8 []) with (0, @nil N) in Hg1; injection Hg1 as <-; exists []; reflexivity|].
           destruct d8_decoder as [_ H]. destruct (H (b :: x) 0 (w_rest s1) ltac:(discriminate) Hg1) as (v & V & _). exists v. exact V.
      * destruct (is_vs (w_next s)); [|exact FinR]. apply FinC; [exact Hg1|reflexivity|exists []; reflexivity].
Qed.
(** only the position matters *)
Lemma wnext_reset s : good s -> wnext s = wnext (wreset (w_end s)).
Proof.
  intro Hg. unfold good in Hg. unfold wreset. rewrite Hg. unfold WcModel.wnext, wadv. cbn [w_end w_next w_rest w_ptr w_wid w_emo]. cbv zeta. unfold set_wid. destruct (w_next s =? 0); [reflexivity|]. destruct (d8 (w_rest s)) as [c r]. reflexivity.
Qed.
Lemma wspans_total fuel : forall s, good s -> (length (w_end s) < fuel)%nat ->
  exists l e, wspans fuel s = Some (l, e) /\ w_end s = concat (map (fun g : glyph => fst (fst g)) l) ++ e /\ Forall (fun g : glyph => fst (fst g) <> []) l /\ fst (d8 e) = 0.
Proof.
  induction fuel as [|fuel IH]; intros s Hg Hf; [lia|]. cbn [WcModel.wspans]. destruct (wnext_total s Hg) as (s' & E & G & P & u & U & Z). rewrite E. destruct (w_next s =? 0) eqn:E0.
  - exists [], (w_end s'). assert (u = []) by (apply Z; lia). subst u. split; [reflexivity|]. split; [exact U|]. split; [constructor|]. cbn [app] in U. rewrite <- U. rewrite Hg. cbn. lia.
  - assert (Hu : u <> []) by (intro Hn; apply Z in Hn; lia). assert (Hl : (length (w_end s') < length (w_end s))%nat) by (rewrite U, app_length; destruct u; [congruence|cbn; lia]).
    destruct (IH s' G ltac:(lia)) as (l & e & El & C & F & D). rewrite El. exists (wglyph s' :: l), e. split; [reflexivity|].
    assert (Eg : fst (fst (wglyph s')) = u) by (unfold wglyph; cbn [fst]; rewrite P, U, app_length; replace (length u + length (w_end s') - length (w_end s'))%nat with (length u) by lia; rewrite firstn_app, firstn_all, Nat.sub_diag; cbn; apply app_nil_r).
    split; [cbn [map concat]; rewrite Eg, <- app_assoc, <- C; exact U|]. split; [constructor; [rewrite Eg; exact Hu|exact F]|exact D].
Qed.
Lemma wspans_fuel f1 : forall f2 s, good s -> (length (w_end s) < f1)%nat -> (length (w_end s) < f2)%nat -> wspans f1 s = wspans f2 s.
Proof.
  induction f1 as [|f1 IH]; intros f2 s Hg H1 H2; [lia|]. destruct f2 as [|f2]; [lia|]. cbn [WcModel.wspans]. destruct (wnext_total s Hg) as (s' & E & G & P & u & U & Z). rewrite E. destruct (w_next s =? 0) eqn:E0; [reflexivity|].
  assert (Hu : u <> []) by (intro Hn; apply Z in Hn; lia). assert (Hl : (length (w_end s') < length (w_end s))%nat) by (rewrite U, app_length; destruct u; [congruence|cbn; lia]).
  rewrite (IH f2 s' G ltac:(lia) ltac:(lia)). reflexivity.
Qed.
Lemma wspans_reset fuel s : good s -> (length (w_end s) < fuel)%nat -> wspans fuel s = glyphs (w_end s).
Proof.
  intros Hg Hf. unfold WcModel.glyphs. rewrite (wspans_fuel fuel (S (length (w_end s))) s Hg Hf ltac:(lia)). cbn [WcModel.wspans]. rewrite wnext_reset by exact Hg. reflexivity.
Qed.
Lemma glyphs_suffix l : forall t e, glyphs t = Some (l, e) -> forall k, glyphs (concat (map (fun g : glyph => fst (fst g)) (skipn k l)) ++ e) = Some (skipn k l, e).
Proof.
  induction l as [|g l IH]; intros t e E k.
  - rewrite skipn_nil. cbn [map concat app]. destruct (wspans_total (S (length t)) (wreset t) (good_reset t)) as (l' & e' & E' & C & _ & D); [unfold wreset; destruct (d8 t); cbn; lia|].
    unfold WcModel.glyphs in E. rewrite E' in E. injection E as -> ->. cbn [map concat app] in C. assert (Ht : w_end (wreset t) = t) by (unfold wreset; destruct (d8 t); reflexivity). rewrite Ht in C. subst e. exact E'.
  - destruct k as [|k].
    + cbn [skipn]. destruct (wspans_total (S (length t)) (wreset t) (good_reset t)) as (l' & e' & E' & C & _ & D); [unfold wreset; destruct (d8 t); cbn; lia|].
      assert (Ht : w_end (wreset t) = t) by (unfold wreset; destruct (d8 t); reflexivity). rewrite Ht in C. unfold WcModel.glyphs in E. rewrite E' in E. injection E as -> ->. rewrite <- C. exact E'.
    + cbn [skipn]. unfold WcModel.glyphs in E. cbn [WcModel.wspans] in E. destruct (wnext_total (wreset t) (good_reset t)) as (s' & E1 & G & P & u & U & Z). rewrite E1 in E.
      destruct (w_next (wreset t) =? 0) eqn:E0; [discriminate|]. destruct (wspans (length t) s') as [[l2 e2]|] eqn:E2; [|discriminate]. injection E as Eg <- <-.
      assert (Hu : u <> []) by (intro Hn; apply Z in Hn; lia). assert (Ht : w_end (wreset t) = t) by (unfold wreset; destruct (d8 t); reflexivity).
      assert (Hl : (length (w_end s') < length t)%nat) by (rewrite <- Ht, U, app_length; destruct u; [congruence|cbn; lia]).
      rewrite (wspans_reset (length t) s' G Hl) in E2. exact (IH _ _ E2 k).
Qed.

(** ** on code points *)
Notation etail := (etail is_vs is_unq is_emo).
Notation cluster := (cluster emoji_on wcw is_vs is_unq is_emo).
Notation clusters := (clusters emoji_on wcw is_vs is_unq is_emo).
Notation extends := (extends emoji_on wcw is_vs).
Notation selects := (selects emoji_on wcw is_vs).
Notation joins := (joins is_unq is_emo).

Definition at_ (s : wst) (r : list N) : Prop := good s /\ w_end s = bs r /\ Forall scalar r.
Lemma at_nil s : at_ s [] -> w_next s = 0.
Proof. intros (G & E & _). unfold good in G. rewrite E in G. change (d8 (bs [])) with (0, @nil N) in G. injection G as <- _. reflexivity. Qed.
Lemma at_cons s c r : at_ s (c :: r) -> w_next s = c /\ c <> 0 /\ w_rest s = bs r /\ Forall scalar r.
Proof.
  intros (G & E & F). unfold good in G. rewrite E, bs_cons, d8_scalar in G by exact (Forall_inv F). injection G as <- <-. split; [reflexivity|]. split; [exact (scalar_pos _ (Forall_inv F))|]. split; [reflexivity|exact (Forall_inv_tail F)].
Qed.
Lemma at_adv s c r : at_ s (c :: r) -> at_ (wadv s) r.
Proof. intro H. destruct (at_cons s c r H) as (_ & _ & E & F). split; [apply good_adv|]. destruct (adv_fields s) as (_ & -> & _). auto. Qed.
Lemma at_len s c r : at_ s (c :: r) -> (length (bs r) < length (w_end s))%nat.
Proof. intros (_ & E & F). rewrite E, bs_cons, app_length. assert (1 <= length (utf8 c))%nat; [|lia]. unfold utf8. destruct (c <? 128); [cbn; lia|]. destruct (c <? 2048); [cbn; lia|]. destruct (c <? 65536); cbn; lia. Qed.
Lemma widen_true w : widen true w = Z.max w 2.
Proof. reflexivity. Qed.
Lemma widen_widen a b w : widen a (widen b w) = widen (b || a) w.
Proof. destruct a, b; cbn; lia. Qed.

Lemma consume_spec fuel : forall s r, at_ s r -> (length (w_end s) < fuel)%nat -> exists s' t r' w, consume fuel s = Some s' /\ r = t ++ r' /\ etail t r' w /\ at_ s' r' /\ w_wid s' = widen w (w_wid s) /\ w_ptr s' = w_ptr s /\ w_emo s' = w_emo s.
Proof.
  induction fuel as [|fuel IH]; intros s r Ha Hf; [lia|]. cbn [WcModel.consume]. destruct r as [|c r].
  - rewrite (at_nil s Ha). exists s, [], [], false. split; [reflexivity|]. split; [reflexivity|]. split; [constructor; reflexivity|]. auto.
  - destruct (at_cons s c r Ha) as (Hn & H0 & Hr & Hsc). rewrite Hn. replace (c =? 0) with false by lia. pose proof (at_len s c r Ha) as Hl. destruct (adv_fields s) as (A1 & A2 & A3 & A4). pose proof (at_adv s c r Ha) as Ha1.
    destruct (is_vs c) eqn:Ev.
    + destruct (IH (wide (wadv s)) r) as (s' & t & r' & w & E & -> & T & A & W & P & M); [exact Ha1|cbn [wide set_wid w_end]; rewrite A2, Hr; lia|].
      exists s', (c :: t), r', true. split; [exact E|]. split; [reflexivity|]. split; [econstructor; eassumption|]. split; [exact A|]. split; [|split; [rewrite P; exact A1|rewrite M; exact A4]].
      rewrite W. cbn [wide set_wid w_wid]. rewrite A3. rewrite <- widen_true, widen_widen. reflexivity.
    + destruct (c =? 8205) eqn:Ez.
      * clear Hn. apply N.eqb_eq in Ez. subst c. cbv zeta. set (s1 := wide (wadv s)). assert (B : at_ s1 r) by exact Ha1. assert (B1 : w_ptr s1 = w_ptr s) by exact A1. assert (B3 : w_wid s1 = Z.max (w_wid s) 2) by (unfold s1; cbn [wide set_wid w_wid]; rewrite A3; reflexivity).
        assert (B4 : w_emo s1 = w_emo s) by exact A4. assert (B2 : w_end s1 = bs r) by (unfold s1; cbn [wide set_wid w_end]; rewrite A2; exact Hr). clearbody s1. clear A1 A2 A3 A4 Ha1.
        destruct r as [|e r].
        -- rewrite (at_nil s1 B), Hemo0, Hunq0. cbn [negb andb N.eqb]. exists s1, [zwj], [], true. split; [reflexivity|]. split; [reflexivity|]. split; [apply et_zwj_end; [exact Ev|reflexivity]|]. split; [exact B|]. split; [rewrite B3; reflexivity|]. auto.
        -- destruct (at_cons s1 e r B) as (Hn1 & H1 & Hr1 & _). rewrite Hn1.
           assert (Ej : negb (is_emo e) && negb (is_unq e) && negb (e =? 9792) && negb (e =? 9794) = negb (joins e)) by (unfold WcSpec.joins; destruct (is_emo e), (is_unq e), (e =? 9792), (e =? 9794); reflexivity).
           rewrite Ej. destruct (joins e) eqn:Je; cbn [negb].
           ++ destruct (adv_fields s1) as (C1 & C2 & C3 & C4). pose proof (at_len s1 e r B) as Hl1.
              destruct (IH (wadv s1) r) as (s' & t & r' & w & E & -> & T & A & W & P & M); [exact (at_adv s1 e r B)|rewrite C2, Hr1; rewrite B2 in Hl1; lia|].
              exists s', (zwj :: e :: t), r', true. split; [exact E|]. split; [reflexivity|]. split; [eapply et_zwj; eassumption|]. split; [exact A|]. split; [|split; congruence].
              rewrite W, C3, B3, <- widen_true, widen_widen. reflexivity.
           ++ exists s1, [zwj], (e :: r), true. split; [reflexivity|]. split; [reflexivity|]. split; [apply et_zwj_end; [exact Ev|exact Je]|]. split; [exact B|]. split; [rewrite B3; reflexivity|]. auto.
      * exists s, [], (c :: r), false. split; [reflexivity|]. split; [reflexivity|]. split; [apply et_stop; [exact Ev|cbn [starts]; unfold zwj; lia]|]. auto.
Qed.
Lemma run_spec fuel : forall s r, at_ s r -> (length (w_end s) < fuel)%nat -> exists s' t r', run fuel s = Some s' /\ r = t ++ r' /\ Forall (fun x => extends x = true) t /\ starts extends r' = false /\ at_ s' r' /\
  w_wid s' = widen (existsb selects t) (w_wid s) /\ w_ptr s' = w_ptr s /\ w_emo s' = w_emo s || existsb selects t.
Proof.
  induction fuel as [|fuel IH]; intros s r Ha Hf; [lia|]. cbn [WcModel.run]. destruct r as [|c r].
  - rewrite (at_nil s Ha). exists s, [], []. split; [reflexivity|]. split; [reflexivity|]. split; [constructor|]. split; [reflexivity|]. split; [exact Ha|]. cbn [existsb widen]. rewrite orb_false_r. auto.
  - destruct (at_cons s c r Ha) as (Hn & H0 & Hr & Hsc). rewrite Hn. replace (c =? 0) with false by lia. pose proof (at_len s c r Ha) as Hl.
    destruct (wcw c =? 0)%Z eqn:Ew; cbn [negb].
    + destruct (adv_fields s) as (A1 & A2 & A3 & A4). destruct (IH (wadv s) r) as (s' & t & r' & E & -> & T & S & A & W & P & M); [exact (at_adv s c r Ha)|rewrite A2, Hr; lia|].
      assert (Es : selects c = false) by (unfold WcSpec.selects; rewrite Ew; cbn; apply andb_false_r).
      exists s', (c :: t), r'. split; [exact E|]. split; [reflexivity|]. split; [constructor; [unfold WcSpec.extends; rewrite Ew; reflexivity|exact T]|]. split; [exact S|]. split; [exact A|]. cbn [existsb]. rewrite Es. cbn [orb]. split; [congruence|]. split; congruence.
    + destruct (emoji_on && is_vs c) eqn:Ev.
      * set (s1 := set_emo (wide s)). assert (Ha1 : at_ s1 (c :: r)) by exact Ha. destruct (adv_fields s1) as (A1 & A2 & A3 & A4). destruct (IH (wadv s1) r) as (s' & t & r' & E & -> & T & S & A & W & P & M); [exact (at_adv s1 c r Ha1)|rewrite A2; unfold s1; cbn [set_emo wide set_wid w_rest]; rewrite Hr; lia|].
        assert (Es : selects c = true) by (unfold WcSpec.selects; rewrite Ew, Ev; reflexivity).
        exists s', (c :: t), r'. split; [exact E|]. split; [reflexivity|]. split; [constructor; [unfold WcSpec.extends; rewrite Ew, Ev; reflexivity|exact T]|]. split; [exact S|]. split; [exact A|]. cbn [existsb]. rewrite Es. cbn [orb].
        split; [rewrite W, A3; unfold s1; cbn [set_emo wide set_wid w_wid]; rewrite <- widen_true, widen_widen; reflexivity|]. split; [rewrite P, A1; reflexivity|]. rewrite M, A4. unfold s1. cbn [set_emo w_emo]. rewrite orb_true_r. reflexivity.
      * exists s, [], (c :: r). split; [reflexivity|]. split; [reflexivity|]. split; [constructor|]. split; [cbn [starts]; unfold WcSpec.extends; rewrite Ew, Ev; reflexivity|]. split; [exact Ha|]. cbn [existsb widen]. rewrite orb_false_r. auto.
Qed.
Lemma starts_regional s r : at_ s r -> regional (w_next s) = starts regional r.
Proof. intro H. destruct r as [|c r]; [rewrite (at_nil s H); reflexivity|]. destruct (at_cons s c r H) as (-> & _). reflexivity. Qed.
Lemma starts_vs_cons s r : at_ s r -> w_next s <> 0 -> exists c r', r = c :: r' /\ w_next s = c.
Proof. intros H Hn. destruct r as [|c r]; [rewrite (at_nil s H) in Hn; congruence|]. exists c, r. split; [reflexivity|apply (at_cons s c r H)]. Qed.

Hypothesis Hvs0 : is_vs 0 = false.
Lemma wnext_spec s c r : at_ s (c :: r) -> exists s' u r' w e, wnext s = Some (c, s') /\ c :: r = u ++ r' /\ cluster u r' w e /\ at_ s' r' /\ wglyph s' = (bs u, w, e).
Proof.
  intro Ha. destruct (at_cons s c r Ha) as (Hn & H0 & Hr & Hsc). pose proof (at_len s c r Ha) as Hl. assert (Hend : w_end s = bs (c :: r)) by apply Ha.
  unfold WcModel.wnext. cbv zeta. rewrite Hn. replace (c =? 0) with false by lia.
  assert (Hg : forall s' u r', c :: r = u ++ r' -> at_ s' r' -> w_ptr s' = w_end s -> forall w e, w_wid s' = w -> w_emo s' = e -> wglyph s' = (bs u, w, e)).
  { intros s' u r' E (_ & E' & _) P w e <- <-. unfold wglyph. rewrite P, E', Hend, E, bs_app, app_length. replace (length (bs u) + length (bs r') - length (bs r'))%nat with (length (bs u)) by lia.
    rewrite firstn_app, firstn_all, Nat.sub_diag. cbn [firstn]. rewrite app_nil_r. reflexivity. }
  set (s0 := mkW (w_end s) (w_end s) c (w_rest s) (w_wid s) false). assert (Ha0 : at_ s0 (c :: r)).
  { destruct Ha as (G & E & F). split; [|split; [exact E|exact F]]. unfold good in *. cbn [s0 w_end w_next w_rest]. rewrite <- Hn. exact G. }
  destruct (adv_fields s0) as (A1 & A2 & A3 & A4). set (s1 := set_wid (wcw c) (wadv s0)). assert (B : at_ s1 r) by exact (at_adv s0 c r Ha0).
  assert (P1 : w_ptr s1 = w_end s) by exact A1. assert (W1 : w_wid s1 = wcw c) by reflexivity. assert (M1 : w_emo s1 = false) by exact A4. assert (L1 : (length (w_end s1) < length (w_end s))%nat) by (assert (E : w_end s1 = bs r) by apply B; rewrite E; exact Hl). clearbody s1.
  destruct (wcw c <? 0)%Z eqn:Eneg.
  { exists s1, [c], r, (wcw c), false. split; [reflexivity|]. split; [reflexivity|]. split; [constructor; lia|]. split; [exact B|]. apply (Hg s1 [c] r eq_refl B P1); assumption. }
  assert (Plain : emoji_on && negb (wcw c =? 0)%Z && (emojis_start is_vs is_unq is_emo c || regional c && starts regional r) = false ->
    exists s' u r' w e, match run (S (length (w_end s))) s1 with None => None | Some s0 => Some (c, s0) end = Some (c, s') /\ c :: r = u ++ r' /\ cluster u r' w e /\ at_ s' r' /\ wglyph s' = (bs u, w, e)).
  { intro Hp. destruct (run_spec (S (length (w_end s))) s1 r B ltac:(lia)) as (s' & t & r' & E & Er & T & S & A & W & P & M). rewrite E. exists s', (c :: t), r', (widen (existsb selects t) (wcw c)), (existsb selects t).
    split; [reflexivity|]. split; [rewrite Er; reflexivity|]. split; [apply cl_plain; [lia| |exact T|exact S]; rewrite <- Er; exact Hp|]. split; [exact A|].
    apply (Hg s' (c :: t) r'); [rewrite Er; reflexivity|exact A|congruence|congruence|rewrite M, M1; reflexivity]. }
  destruct (emoji_on && negb (wcw c =? 0)%Z) eqn:Eon; [|apply Plain; reflexivity]. apply andb_true_iff in Eon as [Eon Ew0].
  rewrite (starts_regional s1 r B). destruct (regional c && starts regional r) eqn:Er.
  - apply andb_true_iff in Er as [Er1 Er2]. destruct r as [|b r]; [discriminate|]. cbn [starts] in Er2. set (s2 := set_wid 2 (set_emo s1)). assert (B2 : at_ s2 (b :: r)) by exact B. destruct (adv_fields s2) as (C1 & C2 & C3 & C4).
    exists (wadv s2), [c; b], r, 2%Z, true. split; [reflexivity|]. split; [reflexivity|]. split; [apply cl_flag; try assumption; lia|]. split; [exact (at_adv s2 b r B2)|].
    apply (Hg (wadv s2) [c; b] r eq_refl (at_adv s2 b r B2)); [rewrite C1; exact P1|rewrite C3; reflexivity|rewrite C4; reflexivity].
  - assert (Emo : forall s2 t0 w0 r2, at_ s2 r2 -> r = t0 ++ r2 -> w_ptr s2 = w_end s -> w_wid s2 = widen w0 (wcw c) -> emojis_start is_vs is_unq is_emo c = true ->
       (forall t r' w, etail t r' w -> exists w', etail (t0 ++ t) r' w' /\ w0 || w = w' || always_wide c && (is_unq c || is_emo c) || negb (is_unq c || is_emo c)) -> (length (w_end s2) < length (w_end s))%nat ->
       exists s' u r' w e, match match consume (S (length (w_end s))) s2 with None => None | Some s => Some (set_emo s) end with None => None | Some s0 => Some (c, s0) end = Some (c, s') /\ c :: r = u ++ r' /\ cluster u r' w e /\ at_ s' r' /\ wglyph s' = (bs u, w, e)).
    { intros s2 t0 w0 r2 B2 Er2 P2 W2 Hst Het L2. destruct (consume_spec (S (length (w_end s))) s2 r2 B2 ltac:(lia)) as (s' & t & r' & w & E & E2 & T & A & W & P & M). rewrite E. destruct (Het t r' w T) as (w' & T' & Ew).
      exists (set_emo s'), (c :: t0 ++ t), r', (widen (w' || always_wide c && (is_unq c || is_emo c) || negb (is_unq c || is_emo c)) (wcw c)), true. split; [reflexivity|].
      assert (Ec : c :: r = (c :: t0 ++ t) ++ r') by (cbn [app]; rewrite Er2, E2, app_assoc; reflexivity).
      split; [exact Ec|]. split; [apply cl_emoji; [exact Eon|lia| |exact Hst|exact T']; injection Ec as <-; exact Er|]. split; [exact A|].
      apply (Hg (set_emo s') (c :: t0 ++ t) r' Ec A); [cbn [set_emo w_ptr]; congruence| |reflexivity]. cbn [set_emo w_wid]. rewrite W, W2, widen_widen, Ew. reflexivity. }
    destruct (is_unq c || is_emo c) eqn:Eue.
    + assert (Hst : emojis_start is_vs is_unq is_emo c = true) by (unfold emojis_start; rewrite Eue; reflexivity).
      destruct (is_unq c && is_vs (w_next s1)) eqn:Euv.
      * apply andb_true_iff in Euv as [_ Ev]. assert (Hn1 : w_next s1 <> 0) by (intro Hz; rewrite Hz, Hvs0 in Ev; discriminate). destruct (starts_vs_cons s1 r B Hn1) as (v & r2 & Er2 & Ev2). subst r. rewrite Ev2 in Ev.
        destruct (adv_fields s1) as (C1 & C2 & C3 & C4). apply (Emo (wide (wadv s1)) [v] true r2); [exact (at_adv s1 v r2 B)|reflexivity|cbn [wide set_wid w_ptr]; congruence|cbn [wide set_wid w_wid]; rewrite C3, W1; reflexivity|exact Hst| |].
        -- intros t r' w T. exists true. split; [econstructor; eassumption|reflexivity].
        -- cbn [wide set_wid w_end]. rewrite C2. destruct (at_cons s1 v r2 B) as (_ & _ & -> & _). pose proof (at_len s1 v r2 B). lia.
      * change ((c =? 12336) || (c =? 12349) || (c =? 12951) || (c =? 12953)) with (always_wide c). destruct (always_wide c) eqn:Eaw.
        -- apply (Emo (wide s1) [] true r); [exact B|reflexivity|exact P1|cbn [wide set_wid w_wid]; rewrite W1; reflexivity|exact Hst| |exact L1]. intros t r' w T. exists w. split; [exact T|]. destruct w; reflexivity.
        -- apply (Emo s1 [] false r); [exact B|reflexivity|exact P1|exact W1|exact Hst| |exact L1]. intros t r' w T. exists w. split; [exact T|]. destruct w; reflexivity.
    + destruct (is_vs c) eqn:Ev.
      * apply (Emo (wide s1) [] true r); [exact B|reflexivity|exact P1|cbn [wide set_wid w_wid]; rewrite W1; reflexivity|unfold emojis_start; rewrite Ev; apply orb_true_r| |exact L1]. intros t r' w T. exists w. split; [exact T|]. destruct w, (always_wide c); reflexivity.
      * apply Plain. unfold emojis_start. rewrite Eue, Ev. reflexivity.
Qed.

Lemma cluster_ne u r w e : cluster u r w e -> u <> [].
Proof. destruct 1; discriminate. Qed.
Lemma wspans_spec fuel : forall s r, at_ s r -> (length (w_end s) < fuel)%nat -> exists l, wspans fuel s = Some (map (fun g => (bs (fst (fst g)), snd (fst g), snd g)) l, []) /\ clusters r l.
Proof.
  induction fuel as [|fuel IH]; intros s r Ha Hf; [lia|]. cbn [WcModel.wspans]. destruct r as [|c r].
  - exists []. assert (Hg : good s) by apply Ha. destruct (wnext_total s Hg) as (s' & E & G & P & u & U & Z). rewrite E, (at_nil s Ha). cbn [N.eqb]. assert (He : w_end s = []) by apply Ha. rewrite He in U. symmetry in U. apply app_eq_nil in U as [_ ->]. split; [reflexivity|constructor].
  - destruct (wnext_spec s c r Ha) as (s' & u & r' & w & e & E & Ec & C & A & G). rewrite E. destruct (at_cons s c r Ha) as (_ & H0 & _). replace (c =? 0) with false by lia.
    assert (Hl : (length (w_end s') < length (w_end s))%nat).
    { assert (E1 : w_end s' = bs r') by apply A. assert (E2 : w_end s = bs (c :: r)) by apply Ha. rewrite E1, E2, Ec, bs_app, app_length. destruct u as [|x u]; [destruct (cluster_ne _ _ _ _ C eq_refl)|]. pose proof (bs_len (x :: u)) as Hb. cbn [length] in Hb. lia. }
    destruct (IH s' r' A ltac:(lia)) as (l & El & Cl). rewrite El. exists ((u, w, e) :: l). rewrite G, Ec. split; [reflexivity|]. constructor; assumption.
Qed.
Theorem glyphs_spec cps : Forall scalar cps -> exists l, glyphs (bs cps) = Some (map (fun g => (bs (fst (fst g)), snd (fst g), snd g)) l, []) /\ clusters cps l.
Proof.
  intro F. apply wspans_spec; [split; [apply good_reset|split; [unfold wreset; destruct (d8 (bs cps)); reflexivity|exact F]]|unfold wreset; destruct (d8 (bs cps)); cbn; lia].
Qed.

(** ** the clusters are determined, also in part of the text *)
Lemma etail_det t r w : etail t r w -> forall t' r' w', etail t' r' w' -> t ++ r = t' ++ r' -> t = t' /\ r = r' /\ w = w'.
Proof.
  induction 1 as [r S1 S2|v t r w V T IH|r Z S|e t r w Z J T IH]; intros t' r' w' H' E.
  - destruct H' as [r' S1' S2'|v t' r' w' V' T'|r' Z' S'|e t' r' w' Z' J' T']; cbn [app] in E.
    + auto.
    + subst r. cbn [starts] in S1. congruence.
    + subst r. cbn [starts] in S2. rewrite N.eqb_refl in S2. discriminate.
    + subst r. cbn [starts] in S2. rewrite N.eqb_refl in S2. discriminate.
  - destruct H' as [r' S1' S2'|v' t' r' w' V' T'|r' Z' S'|e t' r' w' Z' J' T']; cbn [app] in E.
    + subst r'. cbn [starts] in S1'. congruence.
    + injection E as -> E. destruct (IH _ _ _ T' E) as (-> & -> & _). auto.
    + injection E as -> E. congruence.
    + injection E as -> E. congruence.
  - destruct H' as [r' S1' S2'|v' t' r' w' V' T'|r' Z' S'|e t' r' w' Z' J' T']; cbn [app] in E.
    + subst r'. cbn [starts] in S2'. rewrite N.eqb_refl in S2'. discriminate.
    + injection E as <- E. congruence.
    + injection E as ->. auto.
    + injection E as ->. cbn [starts] in S. congruence.
  - destruct H' as [r' S1' S2'|v' t' r' w' V' T'|r' Z' S'|e' t' r' w' Z' J' T']; cbn [app] in E.
    + subst r'. cbn [starts] in S2'. rewrite N.eqb_refl in S2'. discriminate.
    + injection E as <- E. congruence.
    + injection E as E. subst r'. cbn [starts] in S'. congruence.
    + injection E as -> E. destruct (IH _ _ _ T' E) as (-> & -> & _). auto.
Qed.
Lemma ext_det t : forall t' r r', Forall (fun x => extends x = true) t -> Forall (fun x => extends x = true) t' -> starts extends r = false -> starts extends r' = false -> t ++ r = t' ++ r' -> t = t' /\ r = r'.
Proof.
  induction t as [|x t IH]; intros t' r r' F F' S S' E.
  - destruct t' as [|y t']; [auto|]. cbn [app] in E. subst r. cbn [starts] in S. rewrite (Forall_inv F') in S. discriminate.
  - destruct t' as [|y t'].
    + cbn [app] in E. subst r'. cbn [starts] in S'. rewrite (Forall_inv F) in S'. discriminate.
    + cbn [app] in E. injection E as -> E. destruct (IH t' r r' (Forall_inv_tail F) (Forall_inv_tail F') S S' E) as [-> ->]. auto.
Qed.
Lemma cluster_det u r w e u' r' w' e' : cluster u r w e -> cluster u' r' w' e' -> u ++ r = u' ++ r' -> u = u' /\ r = r' /\ w = w' /\ e = e'.
Proof.
  intros H H' E. destruct H as [c r Hc|a b r On Wa Ra Rb|c t r w On Wc Rc Sc T|c t r Wc P F S]; destruct H' as [c' r' Hc'|a' b' r' On' Wa' Ra' Rb'|c' t' r' w' On' Wc' Rc' Sc' T'|c' t' r' Wc' P' F' S']; cbn [app] in E; injection E as E0 E; (match type of E0 with ?x = _ => subst x end); try (exfalso; lia).
  - subst r'. auto.
  - subst b r. auto.
  - rewrite <- E, Ra in Rc'. cbn [starts andb] in Rc'. congruence.
  - rewrite <- E, Ra, On in P'. cbn [starts] in P'. rewrite Rb in P'. replace (wcw c' =? 0)%Z with false in P' by lia. cbn [negb andb] in P'. rewrite orb_true_r in P'. discriminate.
  - rewrite E, Ra' in Rc. cbn [starts andb] in Rc. congruence.
  - destruct (etail_det _ _ _ T _ _ _ T' E) as (-> & -> & ->). auto.
  - rewrite On, Sc in P'. replace (wcw c' =? 0)%Z with false in P' by lia. discriminate.
  - rewrite E, Ra', On' in P. cbn [starts] in P. rewrite Rb' in P. replace (wcw a' =? 0)%Z with false in P by lia. cbn [negb andb] in P. rewrite orb_true_r in P. discriminate.
  - rewrite On', Sc' in P. replace (wcw c' =? 0)%Z with false in P by lia. discriminate.
  - destruct (ext_det _ _ _ _ F F' S S' E) as [-> ->]. auto.
Qed.
Lemma clusters_det cps l : clusters cps l -> forall l', clusters cps l' -> l = l'.
Proof.
  induction 1 as [|u r w e l C H IH]; intros l' H'.
  - inversion H' as [|u' r' w' e' l2 C' H2 E]; [reflexivity|]. apply app_eq_nil in E as [-> _]. destruct (cluster_ne _ _ _ _ C' eq_refl).
  - inversion H' as [E|u' r' w' e' l2 C' H2 E].
    + symmetry in E. apply app_eq_nil in E as [-> _]. destruct (cluster_ne _ _ _ _ C eq_refl).
    + destruct (cluster_det _ _ _ _ _ _ _ _ C' C E) as (-> & -> & -> & ->). f_equal. exact (IH _ H2).
Qed.

(** what follows may be replaced by something that does not attach *)
Definition detached (r : list N) : Prop := starts is_vs r = false /\ starts (N.eqb zwj) r = false /\ starts joins r = false /\ starts extends r = false /\ starts regional r = false.
Lemma detached_nil : detached [].
Proof. repeat split. Qed.
Lemma etail_detach t r w r' : detached r' -> etail t r w -> etail t r' w.
Proof. intros (D1 & D2 & D3 & _). induction 1; econstructor; eassumption. Qed.
Lemma cluster_detach u r w e r' : detached r' -> cluster u r w e -> cluster u r' w e.
Proof.
  intros D H.
  assert (Hs : forall (t r : list N), starts regional (t ++ r) = false -> starts regional (t ++ r') = false) by (intros t r0 H0; destruct t as [|x t]; [apply D|exact H0]).
  destruct H as [c r Hc|a b r On Wa Ra Rb|c t r w On Wc Rc Sc T|c t r Wc P F S].
  - constructor. exact Hc.
  - constructor; assumption.
  - apply cl_emoji; try assumption; [|exact (etail_detach _ _ _ _ D T)]. apply andb_false_iff in Rc as [->|Rc]; [reflexivity|]. rewrite (Hs t r Rc). apply andb_false_r.
  - apply cl_plain; try assumption; [|apply D]. destruct (emoji_on && negb (wcw c =? 0)%Z); [|reflexivity]. cbn [andb] in *. apply orb_false_iff in P as [-> P]. cbn [orb]. apply andb_false_iff in P as [->|P]; [reflexivity|]. rewrite (Hs t r P). apply andb_false_r.
Qed.
Lemma clusters_app a b l' l2 : clusters a l' -> detached b -> clusters b l2 -> clusters (a ++ b) (l' ++ l2).
Proof.
  intros H D H2. induction H as [|u r w e l0 C H IH]; [exact H2|]. cbn [app]. rewrite <- app_assoc. constructor; [|exact IH].
  assert (D' : forall r, detached b -> cluster u r w e -> r = [] -> cluster u (r ++ b) w e) by (intros r0 _ C0 ->; exact (cluster_detach _ _ _ _ b D C0)).
  destruct r as [|x r]; [apply D'; auto|].
  (* the rest is not empty: it starts with the same character *)
  assert (Hst : forall P, starts P ((x :: r) ++ b) = starts P (x :: r)) by reflexivity.
  clear IH H l0 D'. destruct C as [c r' Hc|a1 b1 r' On Wa Ra Rb|c t r' w On Wc Rc Sc T|c t r' Wc P F S].
  - constructor. exact Hc.
  - constructor; assumption.
  - apply cl_emoji; try assumption.
    + rewrite app_assoc. destruct (t ++ r') as [|y z] eqn:Ey; [rewrite <- app_nil_l in Ey|exact Rc]. cbn [app]. assert (Hs : starts regional b = false) by apply D. rewrite Hs. apply andb_false_r.
    + clear - T D. induction T as [r0 S1 S2|v t r0 w V T IH|r0 Z S|e t r0 w Z J T IH].
      * constructor; destruct r0; try assumption; apply D.
      * econstructor; eassumption.
      * apply et_zwj_end; [exact Z|]. destruct r0; [apply D|exact S].
      * eapply et_zwj; eassumption.
  - apply cl_plain; try assumption.
    + rewrite app_assoc. destruct (t ++ r') as [|y z] eqn:Ey; [|exact P]. cbn [app]. assert (Hs : starts regional b = false) by apply D. rewrite Hs. exact P.
    + destruct r'; [apply D|exact S].
Qed.
Lemma clusters_prefix cps l : clusters cps l -> forall k, clusters (concat (map (fun g : list N * Z * bool => fst (fst g)) (firstn k l))) (firstn k l).
Proof.
  intros H k. revert cps l H. induction k as [|k IH]; intros cps l H; [constructor|]. destruct H as [|u r w e l C H]; [constructor|]. cbn [firstn map concat fst]. constructor; [|exact (IH _ _ H)].
  destruct k as [|k]; [cbn [firstn map concat]; exact (cluster_detach _ _ _ _ [] detached_nil C)|]. destruct H as [|u2 r2 w2 e2 l2 C2 H2]; [cbn [firstn map concat]; exact (cluster_detach _ _ _ _ [] detached_nil C)|].
  cbn [firstn map concat fst]. set (b := concat _). assert (Hst : forall P, starts P (u2 ++ b) = starts P (u2 ++ r2)) by (intro P; destruct u2; [destruct (cluster_ne _ _ _ _ C2 eq_refl)|reflexivity]).
  assert (Hst2 : forall P (t : list N), starts P (t ++ u2 ++ b) = starts P (t ++ u2 ++ r2)) by (intros P t; destruct t; [apply Hst|reflexivity]). clear - C Hst Hst2. remember (u2 ++ r2) as r eqn:Er.
  destruct C as [c r' Hc|a1 b1 r' On Wa Ra Rb|c t r' w On Wc Rc Sc T|c t r' Wc P F S].
  - constructor. exact Hc.
  - constructor; assumption.
  - apply cl_emoji; try assumption; [rewrite Hst2; exact Rc|]. clear - T Hst. induction T as [r0 S1 S2|v t r0 w V T IH|r0 Z S|e t r0 w Z J T IH].
    + constructor; rewrite Hst; assumption.
    + econstructor; [eassumption|exact (IH Hst)].
    + apply et_zwj_end; [exact Z|rewrite Hst; exact S].
    + eapply et_zwj; [eassumption|eassumption|exact (IH Hst)].
  - apply cl_plain; try assumption; [rewrite Hst2; exact P|rewrite Hst; exact S].
Qed.
Lemma clusters_concat cps l : clusters cps l -> concat (map (fun g : list N * Z * bool => fst (fst g)) l) = cps.
Proof. induction 1 as [|u r w e l C H IH]; [reflexivity|]. cbn [map concat fst]. rewrite IH. reflexivity. Qed.
End Wc.
