(** The printer keeps the terminal's attributes. *)
From Verif Require Import Base AttrModel AttrSpec AttrProofs SgrProofs.
Open Scope N_scope.

Definition pcol (v : N) : pcolor := if v =? 231 then PDef else if 7 <? v then PBright (v - 8) else PDark v.
Definition flush_cmds (s n : av) : list sgrcmd :=
  (if (snd (v_fg n) =? 231) && (snd (v_bg n) =? 231) then [GReset] else
    (if negb (snd (v_fg n) =? snd (v_fg s)) then [GFg (pcol (snd (v_fg n)))] else []) ++
    (if negb (snd (v_bg n) =? snd (v_bg s)) then [GBg (pcol (snd (v_bg n)))] else [])) ++
  (if negb (Bool.eqb (snd (v_bold n)) (snd (v_bold s))) then [GBold (snd (v_bold n))] else []) ++
  (if negb (Bool.eqb (snd (v_ul n)) (snd (v_ul s))) then [GUl (snd (v_ul n))] else []).
Lemma pcol_enc base v : palette v -> penc base (pcol v) = [if v =? 231 then base + 9 else (if 7 <? v then base + 60 else base) + N.land v 7].
Proof.
  intros [H| ->]; [|reflexivity]. unfold pcol. replace (v =? 231) with false by lia. destruct (7 <? v) eqn:E; cbn [penc].
  - replace v with (8 + (v - 8)) at 2 by lia. do 2 f_equal. change 7 with (N.ones 3). rewrite N.land_ones. change (2 ^ 3) with 8. lia.
  - do 2 f_equal. change 7 with (N.ones 3). rewrite N.land_ones. change (2 ^ 3) with 8. lia.
Qed.
Lemma pcol_ok v : palette v -> pok (pcol v) /\ cval (pmean (pcol v)) = v.
Proof.
  intros [H| ->]; [|split; [exact I|reflexivity]]. unfold pcol. replace (v =? 231) with false by lia. destruct (7 <? v) eqn:E; cbn [pok pmean cval]; split; lia.
Qed.
Lemma flush_params junk p : full (view (p_next p)) -> calm (view (p_next p)) -> p_nodiff p = false ->
  p_params junk p = flat_map genc (flush_cmds (view (p_set p)) (view (p_next p))).
Proof.
  intros (F1 & F2 & F3 & F4 & _) (P1 & P2 & _) Hn. unfold p_params. rewrite Hn. cbv zeta. pose proof (view_diff junk (p_set p) (p_next p)) as Hd.
  set (d := diff junk (p_set p) (p_next p)) in *. clearbody d.
  assert (D1 : fst (get_fg d) = diff1 N.eqb (v_fg (view (p_set p))) (v_fg (view (p_next p)))) by (change (fst (get_fg d)) with (v_fg (view d)); rewrite Hd; reflexivity).
  assert (D2 : fst (get_bg d) = diff1 N.eqb (v_bg (view (p_set p))) (v_bg (view (p_next p)))) by (change (fst (get_bg d)) with (v_bg (view d)); rewrite Hd; reflexivity).
  assert (D3 : get_bold d = diff1 Bool.eqb (v_bold (view (p_set p))) (v_bold (view (p_next p)))) by (change (get_bold d) with (v_bold (view d)); rewrite Hd; reflexivity).
  assert (D4 : get_underline d = diff1 Bool.eqb (v_ul (view (p_set p))) (v_ul (view (p_next p)))) by (change (get_underline d) with (v_ul (view d)); rewrite Hd; reflexivity).
  assert (E1 : get_fg d = (fst (fst (get_fg d)), snd (fst (get_fg d)), snd (fst (get_fg d)) =? 231)) by reflexivity.
  assert (E2 : get_bg d = (fst (fst (get_bg d)), snd (fst (get_bg d)), snd (fst (get_bg d)) =? 231)) by reflexivity.
  rewrite E1, E2, D1, D2, D3, D4. unfold diff1. cbn [fst snd]. rewrite F1, F2, F3, F4. cbn [andb]. unfold flush_cmds. rewrite !flat_map_app. f_equal; [|f_equal].
  - destruct ((snd (v_fg (view (p_next p))) =? 231) && (snd (v_bg (view (p_next p))) =? 231)); [reflexivity|]. rewrite flat_map_app. f_equal.
    + destruct (negb _); [|reflexivity]. cbn [flat_map genc]. rewrite pcol_enc by exact P1. reflexivity.
    + destruct (negb _); [|reflexivity]. cbn [flat_map genc]. rewrite pcol_enc by exact P2. reflexivity.
  - destruct (negb _); [|reflexivity]. destruct (snd (v_bold (view (p_next p)))); reflexivity.
  - destruct (negb _); [|reflexivity]. destruct (snd (v_ul (view (p_next p)))); reflexivity.
Qed.
Lemma flush_cmds_ok s n : calm n -> Forall gok (flush_cmds s n).
Proof.
  intros (P1 & P2 & _). unfold flush_cmds. repeat (apply Forall_app; split).
  - destruct (_ && _); [constructor; [exact I|constructor]|]. apply Forall_app. split; (destruct (negb _); [|constructor]); constructor; try constructor; cbn [gok]; apply pcol_ok; assumption.
  - destruct (negb _); [|constructor]. constructor; [exact I|constructor].
  - destruct (negb _); [|constructor]. constructor; [exact I|constructor].
Qed.

(** the effect of the commands on a terminal that shows [s] *)
Lemma flush_effect t s n : calm n -> shown t = shown s -> shown (over t (fold_left gapply (flush_cmds s n) unset)) = shown n.
Proof.
  intros (P1 & P2 & P3) Hts. destruct t as [[tf0 tf] [tb0 tb] [to0 to] [tu0 tu] [tr0 tr]], s as [[sf0 sf] [sb0 sb] [so0 so] [su0 su] [sr0 sr]], n as [[nf0 nf] [nb0 nb] [no0 no] [nu0 nu] [nr0 nr]].
  unfold shown, flush_cmds in *. cbn [v_fg v_bg v_bold v_ul v_rev fst snd] in *. injection Hts as -> -> -> ->.
  destruct (pcol_ok nf P1) as [_ C1]. destruct (pcol_ok nb P2) as [_ C2].
  destruct ((nf =? 231) && (nb =? 231)) eqn:Ed.
  - assert (nf = 231) by lia. assert (nb = 231) by lia. subst nf nb. destruct (P3 eq_refl eq_refl) as [-> ->].
    destruct so, su; reflexivity.
  - clear P3 Ed P1 P2. destruct (nf =? sf) eqn:E1; destruct (nb =? sb) eqn:E2; cbn [negb app];
      try (apply N.eqb_eq in E1; subst sf); try (apply N.eqb_eq in E2; subst sb);
      destruct no, so, nu, su; cbn [Bool.eqb negb app fold_left gapply over over1 unset v_fg v_bg v_bold v_ul v_rev fst snd orb]; rewrite ?C1, ?C2; reflexivity.
Qed.
Lemma fold_full_over t gs : full t -> full (over t (fold_left gapply gs unset)).
Proof. intros (A & B & C & D & E). unfold full, over, over1. cbn [v_fg v_bg v_bold v_ul v_rev fst]. rewrite A, B, C, D, E. auto 10. Qed.

Lemma eqb_full a b : full (view a) -> full (view b) -> eqb a b = true -> shown (view a) = shown (view b).
Proof.
  intros (A1 & A2 & A3 & A4 & A5) (B1 & B2 & B3 & B4 & B5) H. unfold eqb in H. cbv zeta in H. unfold view, get_fg, get_bg, get_bold, get_underline, get_reverse in *. cbn [v_fg v_bg v_bold v_ul v_rev fst] in *.
  assert (X : forall lo, N.odd (field lo 1 a) = true -> N.odd (field lo 1 b) = true -> N.land (field lo 1 a) (field lo 1 b) =? 0 = false).
  { intros lo. destruct (field1 lo a) as [->| ->], (field1 lo b) as [->| ->]; cbn; congruence. }
  unfold f_fg, f_bg, f_bold, f_underline, f_reverse in *. rewrite !X in H by assumption. rewrite !andb_true_iff, !N.eqb_eq in H. destruct H as ((((H1 & H2) & H3) & H4) & _).
  unfold shown. cbn [v_fg v_bg v_bold v_ul snd]. congruence.
Qed.

(** The printer knows what the terminal shows. *)
Record pinv (p : printer) (term : av) : Prop := { i_set : full (view (p_set p)); i_next : full (view (p_next p)); i_calm : calm (view (p_next p)); i_nodiff : p_nodiff p = false;
  i_term : full term; i_shown : shown term = shown (view (p_set p)) }.

(** a flush *)
Lemma p_flush_ok junk p term : pinv p term -> exists term', pinv (snd (p_flush junk p)) term' /\ shown term' = shown (view (p_next p)) /\
  (forall rest, screen term (sgr_event (fst (p_flush junk p)) ++ rest) = screen term' rest).
Proof.
  intros [S N0 C D T H]. cbn [p_flush fst snd]. rewrite (flush_params junk p N0 C D). set (gs := flush_cmds (view (p_set p)) (view (p_next p))).
  pose proof (flush_effect term _ _ C H) as He. fold gs in He. pose proof (flush_cmds_ok (view (p_set p)) _ C) as Hg. fold gs in Hg.
  clearbody gs. destruct gs as [|g gs].
  - exists term. assert (Hs : shown term = shown (view (p_next p))). { rewrite <- He. cbn [fold_left]. unfold shown, over, over1, unset. cbn. destruct term as [[? ?] [? ?] [? ?] [? ?] [? ?]]. reflexivity. }
    split; [constructor; cbn; auto|]. split; [exact Hs|]. reflexivity.
  - destruct (sgr_correct (g :: gs) Hg ltac:(discriminate)) as (a & Ea & Va). exists (over term (view a)).
    assert (Hs : shown (over term (view a)) = shown (view (p_next p))) by (rewrite Va; exact He).
    split; [constructor; cbn; auto; rewrite Va; apply fold_full_over; exact T|]. split; [exact Hs|]. intro rest.
    destruct (flat_map genc (g :: gs)) as [|q qs] eqn:Ef; [destruct g as [|[]| |[]|[]|[]|[]|]; discriminate|]. cbn [sgr_event app screen]. rewrite Ea. reflexivity.
Qed.

Lemma p_print_ok junk t p term : pinv p term -> exists term', pinv (snd (p_print junk t p)) term' /\ view (p_next (snd (p_print junk t p))) = view (p_next p) /\
  (forall rest, screen term (fst (p_print junk t p) ++ rest) = (match t with [] => [] | _ => [(t, shown (view (p_next p)))] end) ++ screen term' rest).
Proof.
  intro I. unfold p_print. destruct t as [|c t]; [exists term; cbn; auto|]. destruct (eqb (p_next p) (p_set p)) eqn:E.
  - exists term. cbn. split; [exact I|]. split; [reflexivity|]. intro rest. rewrite (i_shown _ _ I). rewrite (eqb_full _ _ (i_next _ _ I) (i_set _ _ I) E). reflexivity.
  - destruct (p_flush_ok junk p term I) as (term' & I' & Hs & Hr). exists term'. destruct (p_flush junk p) as [ps p'] eqn:Ef. cbn [fst snd] in *. split; [exact I'|].
    split; [injection Ef as _ <-; reflexivity|]. intro rest. rewrite <- app_assoc, Hr. cbn [app screen]. rewrite Hs. reflexivity.
Qed.

Lemma set_ok a p term : pinv p term -> calm (over (view (p_next p)) (view a)) -> pinv (p_set_attributes a p) term.
Proof.
  intros [S N0 C D T H] Hc. constructor; cbn [p_set_attributes p_set p_next p_nodiff]; auto; rewrite view_merge; [|exact Hc].
  destruct N0 as (A & B & X & Y & Z). unfold full, over, over1. cbn [v_fg v_bg v_bold v_ul v_rev fst]. rewrite A, B, X, Y, Z. auto 10.
Qed.
Lemma over_full_eq x y : full y -> full x -> over x y = y.
Proof.
  intros (A & B & C & D & E) (A' & B' & C' & D' & E'). destruct y as [[yf ?] [yb ?] [yo ?] [yu ?] [yr ?]], x as [[xf ?] [xb ?] [xo ?] [xu ?] [xr ?]]. cbn in *. subst. reflexivity.
Qed.

Lemma run_ok junk os : forall p term, pinv p term -> calms (view (p_next p)) os -> screen term (fst (p_run junk p os)) = asked (view (p_next p)) os.
Proof.
  induction os as [|o os IH]; intros p term I Hc; [reflexivity|]. cbn [p_run]. destruct o as [a|t|a t]; cbn [p_op asked calms] in *.
  - destruct Hc as [Hc Hcs]. pose proof (set_ok a p term I Hc) as I'. specialize (IH (p_set_attributes a p) term I').
    destruct (p_run junk (p_set_attributes a p) os) as [e2 p2]. cbn [fst app]. cbn [p_set_attributes p_next] in IH. rewrite view_merge in IH. exact (IH Hcs).
  - destruct (p_print_ok junk t p term I) as (term' & I' & Hv & Hr). destruct (p_print junk t p) as [e p1]. cbn [fst snd] in *. specialize (IH p1 term' I'). rewrite Hv in IH. specialize (IH Hc).
    destruct (p_run junk p1 os) as [e2 p2]. cbn [fst] in *. rewrite Hr, IH. reflexivity.
  - destruct Hc as [Hc Hcs]. pose proof (set_ok a p term I Hc) as I1. unfold p_print_attr. destruct (p_print_ok junk t _ term I1) as (term1 & I2 & Hv & Hr).
    destruct (p_print junk t (p_set_attributes a p)) as [e1 p1]. cbn [fst snd] in *. cbn [p_set_attributes p_next] in Hv. rewrite view_merge in Hv.
    cbn [p_set_attributes p_next] in Hr. rewrite view_merge in Hr.
    assert (Ho : over (view (p_next p1)) (view (p_next p)) = view (p_next p)) by (apply over_full_eq; [exact (i_next _ _ I)|exact (i_next _ _ I2)]).
    assert (I3 : pinv (p_set_attributes (p_next p) p1) term1) by (apply set_ok; [exact I2|]; rewrite Ho; exact (i_calm _ _ I)).
    destruct (p_flush_ok junk _ term1 I3) as (term2 & I4 & _ & Hr2). destruct (p_flush junk (p_set_attributes (p_next p) p1)) as [ps p2] eqn:Ef. cbn [fst snd] in *.
    assert (Ev : view (p_next p2) = view (p_next p)) by (injection Ef as _ <-; cbn [p_next p_set_attributes]; rewrite view_merge; exact Ho).
    specialize (IH p2 term2 I4). rewrite Ev in IH. specialize (IH Hcs). destruct (p_run junk p2 os) as [e2 p3]. cbn [fst] in *. rewrite <- app_assoc, Hr, Hr2, IH. reflexivity.
Qed.
Theorem printer_correct junk os : calms plain os -> screen plain (fst (p_run junk p_new os)) = asked plain os.
Proof.
  intro H. apply (run_ok junk os p_new plain); [|exact H]. constructor; try (cbn; auto 10; fail).
  - change (view (p_set p_new)) with plain. unfold full. cbn. auto 10.
  - change (view (p_next p_new)) with plain. unfold full. cbn. auto 10.
  - change (view (p_next p_new)) with plain. unfold calm, palette. cbn. auto 10.
  - unfold full. cbn. auto 10.
Qed.
