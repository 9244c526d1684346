(** Proofs about the directory shortcuts. *)
From Verif Require Import Base CmpModel PathModel CdModel CdSpec.
Local Open Scope N_scope.

Lemma blank_iff c : blank c = true <-> c = 32 \/ c = 9.
Proof. unfold blank. lia. Qed.
Lemma has_iff c l : has c l = true <-> In c l.
Proof.
  unfold has. rewrite existsb_exists. split.
  - intros (x & I & E). apply N.eqb_eq in E. subst. exact I.
  - intro I. exists c. split; [exact I|apply N.eqb_refl].
Qed.
Lemma has_false c l : has c l = false <-> ~ In c l.
Proof. rewrite <- has_iff. destruct (has c l); split; intro H; congruence. Qed.
Lemma has_app c a b : has c (a ++ b) = has c a || has c b.
Proof. apply existsb_app. Qed.
Lemma eqt_iff a b : eqt a b = true <-> a = b.
Proof. unfold eqt. destruct (list_eq_dec N.eq_dec a b); split; congruence. Qed.
Lemma iequals_iff a b : iequals a b = true <-> same_letters a b.
Proof. unfold iequals. apply eqt_iff. Qed.
Lemma skip_blanks_app b l : blanks b -> skip_blanks (b ++ l) = skip_blanks l.
Proof. induction 1 as [|c b C _ IH]; [reflexivity|]. cbn [app skip_blanks]. rewrite (proj2 (blank_iff c) C). exact IH. Qed.
Lemma skip_blanks_all b : blanks b -> skip_blanks b = [].
Proof. intro B. rewrite <- (app_nil_r b). rewrite skip_blanks_app by exact B. reflexivity. Qed.
Lemma skip_blanks_split l : exists b, blanks b /\ l = b ++ skip_blanks l /\ match skip_blanks l with c :: _ => blank c = false | [] => True end.
Proof.
  induction l as [|c l (b & B & E & F)]; [exists []; split; [apply Forall_nil|split; [reflexivity|exact Logic.I]]|]. cbn [skip_blanks]. destruct (blank c) eqn:C.
  - exists (c :: b). split; [apply Forall_cons; [apply blank_iff; exact C|exact B]|]. split; [cbn [app]; f_equal; exact E|exact F].
  - exists []. split; [apply Forall_nil|]. split; [reflexivity|exact C].
Qed.
Lemma skip_blanks_nil l : skip_blanks l = [] <-> blanks l.
Proof.
  split; [|apply skip_blanks_all]. intro E. destruct (skip_blanks_split l) as (b & B & X & _). rewrite E, app_nil_r in X. subst. exact B.
Qed.
Lemma skip_trimmed line l : trimmed line l <-> skip_blanks line = l.
Proof.
  split.
  - intros (b & B & -> & H). rewrite skip_blanks_app by exact B. destruct l as [|c l]; [reflexivity|]. cbn [skip_blanks]. destruct (blank c) eqn:C; [|reflexivity]. apply blank_iff in C. lia.
  - intros <-. destruct (skip_blanks_split line) as (b & B & E & F). exists b. split; [exact B|]. split; [exact E|]. destruct (skip_blanks line) as [|c r]; [exact Logic.I|].
    split; intros ->; discriminate.
Qed.

(** ** The token *)
Definition wpart (l p : text) : text := map snd (filter (fun pc => kept l (fst pc) (snd pc)) (combine (seq 0 (length p)) p)).
Lemma combine_snoc {A B} (a : list A) (b : list B) x y : length a = length b -> combine (a ++ [x]) (b ++ [y]) = combine a b ++ [(x, y)].
Proof. revert b. induction a as [|u a IH]; intros [|v b] H; cbn [length] in H; try lia; [reflexivity|]. cbn [app combine]. rewrite IH by lia. reflexivity. Qed.
Lemma wpart_snoc l p c : wpart l (p ++ [c]) = wpart l p ++ if kept l (length p) c then [c] else [].
Proof.
  unfold wpart. rewrite app_length. cbn [length]. rewrite seq_app. cbn [seq plus]. rewrite combine_snoc by (rewrite seq_length; reflexivity).
  rewrite filter_app, map_app. f_equal. cbn [filter fst snd]. destruct (kept l (length p) c); reflexivity.
Qed.
Lemma quoted_snoc p c r : quoted_at (p ++ c :: r) (length (p ++ [c])) = xorb (quoted_at (p ++ c :: r) (length p)) (c =? 34).
Proof.
  unfold quoted_at. change (c :: r) with ([c] ++ r). rewrite app_assoc. rewrite (firstn_app_exact (p ++ [c]) r) by reflexivity. rewrite <- app_assoc. rewrite (firstn_app_exact p ([c] ++ r)) by reflexivity.
  rewrite count_occ_app. cbn [count_occ]. destruct (N.eq_dec c 34) as [E|E].
  - rewrite (proj2 (N.eqb_eq c 34) E). rewrite Nat.add_1_r, Nat.odd_succ, <- Nat.negb_odd. destruct (Nat.odd _); reflexivity.
  - rewrite (proj2 (N.eqb_neq c 34) E), Nat.add_0_r, xorb_false_r. reflexivity.
Qed.
Lemma quoted_none p r : Forall (fun d => stop d = false) p -> quoted_at (p ++ r) (length p) = false.
Proof.
  intro F. unfold quoted_at. rewrite (firstn_app_exact p r) by reflexivity. replace (count_occ N.eq_dec p 34) with 0%nat; [reflexivity|]. symmetry. apply count_occ_not_In.
  intro I. rewrite Forall_forall in F. specialize (F _ I). discriminate.
Qed.
Lemma stop_split p c r w d s : Forall (fun x => stop x = false) p -> Forall (fun x => stop x = false) w -> stop c = true -> stop d = true -> p ++ c :: r = w ++ d :: s -> p = w /\ c = d.
Proof.
  revert w. induction p as [|x p IH]; intros [|y w] P W C D E; cbn [app] in E.
  - injection E as -> _. auto.
  - injection E as -> _. pose proof (Forall_inv W) as Y. cbn beta in Y. congruence.
  - injection E as -> _. pose proof (Forall_inv P) as Y. cbn beta in Y. congruence.
  - injection E as -> E. destruct (IH w (Forall_inv_tail P) (Forall_inv_tail W) C D E) as [-> ->]. auto.
Qed.
Lemma ends_stop c : In c (tx "./\") -> stop c = true.
Proof. intro I. apply has_iff. change (tx "./\""^%") with (tx "./\" ++ tx """^%"). apply in_or_app. left. exact I. Qed.
Lemma ends_iff c : ends_component c = true <-> In c (tx "./\").
Proof. unfold ends_component. change (tx "./\") with [46; 47; 92]. cbn [In]. split; [intro H; repeat rewrite orb_true_iff in H; lia|lia]. Qed.
Lemma stop_cases c : stop c = ends_component c || (c =? 34) || (c =? 94) || (c =? 37).
Proof. unfold stop, ends_component. change (tx "./\""^%") with [46; 47; 92; 34; 94; 37]. cbn [has existsb]. rewrite orb_false_r, !orb_assoc. reflexivity. Qed.
Lemma no_command p r : Forall (fun d => stop d = false) (p ++ r) -> ~ command_first (p ++ r).
Proof.
  intros F (w & c & s & E & I & _). rewrite E in F. apply Forall_app in F as [_ F]. pose proof (Forall_inv F) as X. cbn beta in X. rewrite (ends_stop c I) in X. discriminate.
Qed.
Lemma command_here p c r : Forall (fun d => stop d = false) p -> In c (tx "./\") -> command_first (p ++ c :: r) <-> existsb (iequals p) commands = true.
Proof.
  intros F I. rewrite existsb_exists. split.
  - intros (w & d & s & E & J & W & n & N & SL). destruct (stop_split p c r w d s F W (ends_stop c I) (ends_stop d J) E) as [-> ->]. exists n. split; [exact N|apply iequals_iff; exact SL].
  - intros (n & N & SL). apply iequals_iff in SL. exists p, c, r. split; [reflexivity|]. split; [exact I|]. split; [exact F|]. exists n. auto.
Qed.
Lemma command_other p c r : Forall (fun d => stop d = false) p -> stop c = true -> ~ In c (tx "./\") -> ~ command_first (p ++ c :: r).
Proof.
  intros F S NI (w & d & s & E & J & W & _). destruct (stop_split p c r w d s F W S (ends_stop d J) E) as [_ ->]. contradiction.
Qed.

Definition outcome (l : text) (n : nat) (x : option (text * bool)) : Prop :=
  match x with
  | Some (o, e) => o = word l /\ e = has 37 l /\ (forall q c, (n <= q)%nat -> nth_error l q = Some c -> ~ bad l q c) /\ ~ command_first l
  | None => (exists q c, (n <= q)%nat /\ nth_error l q = Some c /\ bad l q c) \/ command_first l
  end.
Lemma outcome_weaken l n c x : nth_error l n = Some c -> ~ bad l n c -> outcome l (S n) x -> outcome l n x.
Proof.
  intros E B. destruct x as [(o & e)|]; cbn [outcome].
  - intros (A1 & A2 & A3 & A4). split; [exact A1|]. split; [exact A2|]. split; [|exact A4]. intros q d Q H. destruct (Nat.eq_dec q n) as [->|]; [congruence|]. apply A3; [lia|exact H].
  - intros [(q & d & Q & H)|H]; [left; exists q, d; split; [lia|exact H]|right; exact H].
Qed.
Lemma nth_mid (p r : text) c : nth_error (p ++ c :: r) (length p) = Some c.
Proof. rewrite nth_error_app2 by lia. rewrite Nat.sub_diag. reflexivity. Qed.

Lemma token_blanks l p r first e out : l = p ++ r -> blanks r -> quoted_at l (length p) = false ->
  (first = true -> Forall (fun d => stop d = false) p) -> (first = false -> ~ command_first l) ->
  out = wpart l p -> e = has 37 p -> outcome l (length p) (Some (out, e)).
Proof.
  intros E B Q F1 F2 O X. cbn [outcome]. unfold blanks in B.
  assert (NB : forall q c, (length p <= q)%nat -> nth_error l q = Some c -> blank c = true).
  { intros q c H N. rewrite E, nth_error_app2 in N by lia. apply nth_error_In in N. rewrite Forall_forall in B. apply blank_iff. apply B. exact N. }
  assert (QQ : forall b p', r = b ++ p' -> quoted_at l (length p + length b) = false).
  { intros b p' H. unfold quoted_at in *. rewrite E, H. rewrite app_assoc. rewrite <- app_length. rewrite (firstn_app_exact (p ++ b) p') by reflexivity.
    rewrite E in Q. rewrite (firstn_app_exact p r) in Q by reflexivity. rewrite count_occ_app. replace (count_occ N.eq_dec b 34) with 0%nat; [rewrite Nat.add_0_r; exact Q|].
    symmetry. apply count_occ_not_In. intro I. rewrite Forall_forall in B. destruct (B 34); [rewrite H; apply in_or_app; left; exact I|lia|lia]. }
  assert (W : forall b p', r = b ++ p' -> wpart l (p ++ b) = wpart l p).
  { intros b. induction b as [|c b IH] using rev_ind; intros p' H; [rewrite app_nil_r; reflexivity|]. rewrite app_assoc, wpart_snoc.
    rewrite <- app_assoc in H. cbn [app] in H. rewrite (IH (c :: p') H). replace (kept l (length (p ++ b)) c) with false; [apply app_nil_r|]. symmetry.
    unfold kept, plain_blank. rewrite app_length, (QQ b _ H). assert (BC : blank c = true). { rewrite Forall_forall in B. apply blank_iff, B. rewrite H. apply in_or_app. right. left. reflexivity. }
    unfold blank in BC. rewrite BC. cbn [negb andb]. apply andb_false_r. }
  split; [|split; [|split]].
  - rewrite O. unfold word. change (wpart l p = wpart l l). rewrite <- (W r [] (eq_sym (app_nil_r r))). f_equal. symmetry. exact E.
  - rewrite X, E, has_app. replace (has 37 r) with false; [rewrite orb_false_r; reflexivity|]. symmetry. apply has_false. intro I. rewrite Forall_forall in B. destruct (B _ I); lia.
  - intros q c H N BD. pose proof (NB q c H N) as BC. apply blank_iff in BC. destruct BD as [BD|[[BD _]|(_ & q' & d & H' & N' & D1 & D2)]].
    + change (tx "<|>") with [60; 124; 62] in BD. cbn [In] in BD. lia.
    + change (tx "@()&+=;,") with [64; 40; 41; 38; 43; 61; 59; 44] in BD. cbn [In] in BD. lia.
    + assert (blank d = true) by (apply (NB q' d); [lia|exact N']). unfold blank in *. lia.
  - destruct first; [|apply F2; reflexivity]. rewrite E. apply no_command. apply Forall_app. split; [apply F1; reflexivity|]. apply Forall_impl with (2 := B).
    intros c [-> | ->]; reflexivity.
Qed.

Lemma token_ok l : forall r p first e out, l = p ++ r ->
  (first = true -> Forall (fun d => stop d = false) p /\ out = p) -> (first = false -> ~ command_first l) ->
  out = wpart l p -> e = has 37 p -> outcome l (length p) (token first (quoted_at l (length p)) e out r).
Proof.
  induction r as [|c r IH]; intros p first e out E F1 F2 O X.
  - cbn [token]. rewrite app_nil_r in E. subst p. cbn [outcome]. split; [exact O|]. split; [exact X|].
    split. { intros q c Q N. exfalso. assert (q < length l)%nat by (apply nth_error_Some; congruence). lia. }
    destruct first; [|apply F2; reflexivity]. rewrite <- (app_nil_r l). apply no_command. rewrite app_nil_r. apply F1. reflexivity.
  - cbn [token]. pose proof (nth_mid p r c) as NM. rewrite <- E in NM. pose proof (quoted_snoc p c r) as QS. rewrite <- E in QS.
    set (q := quoted_at l (length p)) in *. pose proof (wpart_snoc l p c) as WS. pose proof (has_app 37 p [c]) as HS. cbn [has existsb] in HS. rewrite orb_false_r in HS. fold (has 37 p) in HS.
    fold (has 37 (p ++ [c])) in HS.
    assert (LEN : length (p ++ [c]) = S (length p)) by (rewrite app_length; cbn [length]; lia).
    assert (REC : forall first' e' out', (first' = true -> Forall (fun d => stop d = false) (p ++ [c]) /\ out' = p ++ [c]) -> (first' = false -> ~ command_first l) ->
      out' = wpart l (p ++ [c]) -> e' = has 37 (p ++ [c]) -> ~ bad l (length p) c -> forall q', q' = quoted_at l (length (p ++ [c])) -> outcome l (length p) (token first' q' e' out' r)).
    { intros first' e' out' G1 G2 G3 G4 NB q' ->. apply outcome_weaken with (c := c); [exact NM|exact NB|]. rewrite <- LEN. apply IH; auto. rewrite <- app_assoc. exact E. }
    destruct (blank c) eqn:BC; cbn [andb].
    { destruct q eqn:Q; cbn [negb].
      - (* a quoted blank *)
        assert (C : c = 32 \/ c = 9) by (apply blank_iff; exact BC).
        assert (NB : ~ bad l (length p) c).
        { intros [B|[[B _]|[B _]]].
          - change (tx "<|>") with [60; 124; 62] in B. cbn [In] in B. lia.
          - change (tx "@()&+=;,") with [64; 40; 41; 38; 43; 61; 59; 44] in B. cbn [In] in B. lia.
          - unfold plain_blank in B. fold q in B. rewrite Q in B. cbn [negb] in B. rewrite andb_false_r in B. discriminate. }
        assert (K : kept l (length p) c = true). { unfold kept, plain_blank. fold q. rewrite Q. cbn [negb andb]. rewrite !andb_false_r. destruct C as [-> | ->]; reflexivity. }
        rewrite K in WS. assert (FF : first = false). { destruct first; [|reflexivity]. exfalso. destruct (F1 eq_refl) as [F1' _]. pose proof (quoted_none p (c :: r) F1') as Z. rewrite <- E in Z. fold q in Z. congruence. }
        subst first.
        replace (refused c) with false by (destruct C as [-> | ->]; reflexivity). replace (acceptable_quoted c) with false by (destruct C as [-> | ->]; reflexivity).
        replace (c =? 34) with false in * by lia. replace (c =? 94) with false by lia. replace (c =? 37) with false in * by lia. replace (ends_component c) with false by (destruct C as [-> | ->]; reflexivity).
        cbn [andb]. apply REC; [discriminate|exact F2|rewrite WS; congruence| |exact NB|rewrite QS; reflexivity].
        replace (37 =? c) with false in HS by lia. rewrite HS, orb_false_r. exact X.
      - (* a plain blank *)
        destruct (skip_blanks (c :: r)) as [|d s] eqn:SB.
        + apply skip_blanks_nil in SB. apply (token_blanks l p (c :: r) first e out E SB Q); auto. intro H. apply F1. exact H.
        + left. exists (length p), c. split; [lia|]. split; [exact NM|]. right. right. split; [unfold plain_blank; fold q; rewrite Q; unfold blank in BC; rewrite BC; reflexivity|].
          destruct (skip_blanks_split (c :: r)) as (b & B & EB & ND). rewrite SB in EB, ND. destruct b as [|c' b]; [cbn [app] in EB; injection EB as <- _; congruence|].
          exists (length p + length (c' :: b))%nat, d. split; [cbn [length]; lia|]. split.
          * rewrite E, EB. rewrite nth_error_app2 by lia. rewrite nth_error_app2 by lia. replace (length p + length (c' :: b) - length p - length (c' :: b))%nat with 0%nat by lia. reflexivity.
          * split; intros ->; discriminate. }
    assert (PB : plain_blank l (length p) c = false) by (unfold plain_blank; unfold blank in BC; rewrite BC; reflexivity).
    destruct (refused c) eqn:RC.
    { left. exists (length p), c. split; [lia|]. split; [exact NM|]. left. apply has_iff. exact RC. }
    destruct (acceptable_quoted c) eqn:AQ; cbn [andb].
    { destruct q eqn:Q; cbn [negb].
      2: { left. exists (length p), c. split; [lia|]. split; [exact NM|]. right. left. split; [apply has_iff; exact AQ|exact Q]. }
      assert (NB : ~ bad l (length p) c).
      { intros [B|[[_ B]|[B _]]]; [apply has_iff in B; unfold refused in RC; congruence|fold q in B; congruence|congruence]. }
      apply has_iff in AQ. change (tx "@()&+=;,") with [64; 40; 41; 38; 43; 61; 59; 44] in AQ. cbn [In] in AQ.
      assert (FF : first = false). { destruct first; [|reflexivity]. exfalso. destruct (F1 eq_refl) as [F1' _]. pose proof (quoted_none p (c :: r) F1') as Z. rewrite <- E in Z. fold q in Z. congruence. }
      subst first. assert (K : kept l (length p) c = true) by (unfold kept; rewrite PB; replace (c =? 34) with false by lia; replace (c =? 94) with false by lia; reflexivity). rewrite K in WS.
      replace (c =? 34) with false in * by lia. replace (c =? 94) with false by lia. replace (c =? 37) with false in * by lia. replace (ends_component c) with false by (unfold ends_component; lia).
      cbn [andb]. apply REC; [discriminate|exact F2|rewrite WS; congruence| |exact NB|rewrite QS; reflexivity].
      replace (37 =? c) with false in HS by lia. rewrite HS, orb_false_r. exact X. }
    assert (NB : ~ bad l (length p) c).
    { intros [B|[[B _]|[B _]]]; [apply has_iff in B; unfold refused in RC; congruence|apply has_iff in B; unfold acceptable_quoted in AQ; congruence|congruence]. }
    assert (NOCMD : stop c = true -> ends_component c = false -> ~ command_first l).
    { intros SC EC. destruct first; [|apply F2; reflexivity]. rewrite E. apply command_other; [apply F1; reflexivity|exact SC|]. intro I. apply ends_iff in I. congruence. }
    unfold kept in WS. rewrite PB in WS. fold q in WS. cbn [negb] in WS. rewrite andb_true_r in WS.
    destruct (N.eqb_spec c 34) as [->|N34].
    { cbn [negb andb] in WS. rewrite app_nil_r in WS. apply REC; [discriminate|intros _; apply NOCMD; reflexivity|congruence| |exact NB|rewrite QS; destruct q; reflexivity].
      change (37 =? 34) with false in HS. rewrite HS, orb_false_r. exact X. }
    rewrite xorb_false_r in QS. cbn [negb andb] in WS.
    destruct (N.eqb_spec c 94) as [->|N94].
    { change (37 =? 94) with false in HS. rewrite orb_false_r in HS. cbn [andb] in WS.
      assert (LL : (S (length p) <? length l)%nat = match r with [] => false | _ => true end). { rewrite E, app_length. cbn [length]. destruct r; cbn [length]; [apply Nat.ltb_ge; lia|apply Nat.ltb_lt; lia]. }
      rewrite LL in WS. destruct (negb q && match r with [] => false | _ => true end) eqn:G; cbn [negb] in WS.
      - rewrite app_nil_r in WS. apply REC; [discriminate|intros _; apply NOCMD; reflexivity|congruence|congruence|exact NB|congruence].
      - apply REC; [discriminate|intros _; apply NOCMD; reflexivity|congruence|congruence|exact NB|congruence]. }
    cbn [andb negb] in WS.
    destruct (N.eqb_spec c 37) as [->|N37].
    { change (37 =? 37) with true in HS. rewrite orb_true_r in HS. apply REC; [discriminate|intros _; apply NOCMD; reflexivity|congruence|congruence|exact NB|congruence]. }
    replace (37 =? c) with false in HS by lia. rewrite orb_false_r in HS.
    destruct (ends_component c) eqn:EC.
    { pose proof (proj1 (ends_iff c) EC) as IC. destruct first; cbn [andb].
      - destruct (F1 eq_refl) as [F1' ->]. pose proof (command_here p c r F1' IC) as CH. rewrite <- E in CH.
        destruct (existsb (iequals p) commands).
        + right. apply CH. reflexivity.
        + apply REC; [discriminate|intros _ Z; apply CH in Z; discriminate|congruence|congruence|exact NB|congruence].
      - apply REC; [discriminate|exact F2|congruence|congruence|exact NB|congruence]. }
    apply REC; [|exact F2|congruence|congruence|exact NB|congruence].
    intro H. destruct (F1 H) as [F1' ->]. split; [|reflexivity]. apply Forall_app. split; [exact F1'|]. apply Forall_cons; [|apply Forall_nil].
    rewrite stop_cases, EC. lia.
Qed.

(** ** Environment variables *)
Section Env.
Variable env : text -> option text.
Lemma until_percent_spec l a b : until_percent l = (a, b) -> l = a ++ b /\ ~ In 37 a /\ (b = [] \/ exists b', b = 37 :: b').
Proof.
  revert a b. induction l as [|c l IH]; intros a b H; cbn [until_percent] in H.
  - injection H as <- <-. split; [reflexivity|]. split; [intros []|auto].
  - destruct (N.eqb_spec c 37) as [->|NE].
    + injection H as <- <-. split; [reflexivity|]. split; [intros []|eauto].
    + destruct (until_percent l) as (a1 & b1). injection H as <- <-. destruct (IH a1 b1 eq_refl) as (-> & A & B). split; [reflexivity|]. split; [|exact B].
      intros [I|I]; [congruence|contradiction].
Qed.
Lemma expanded_app a l o : ~ In 37 a -> expanded env l o -> expanded env (a ++ l) (a ++ o).
Proof.
  intros A E. induction a as [|c a IH]; [exact E|]. cbn [app]. apply ex_char; [intros ->; apply A; left; reflexivity|]. apply IH. intro I. apply A. right. exact I.
Qed.
Lemma expand_ok fuel : forall l, (length l < fuel)%nat -> exists o e, expand env fuel l = Some (o, e) /\ expanded env l o /\ (e = false -> o = l).
Proof.
  induction fuel as [|fuel IH]; intros l H; [lia|]. cbn [expand]. destruct l as [|c l]; [exists [], false; split; [reflexivity|]; split; [apply ex_nil|reflexivity]|].
  destruct (until_percent (c :: l)) as (a & b) eqn:U. apply until_percent_spec in U as (E & A & B). rewrite E in *. clear E c l. destruct B as [->|(b' & ->)].
  - exists a, false. split; [reflexivity|]. rewrite app_nil_r. split; [|reflexivity]. rewrite <- (app_nil_r a). apply expanded_app; [exact A|apply ex_nil].
  - destruct (until_percent b') as (var & c) eqn:U. apply until_percent_spec in U as (E & V & C). subst b'. rewrite !app_length in H. cbn [length] in H. rewrite app_length in H. destruct C as [->|(c' & ->)].
    + exists (a ++ 37 :: var), false. rewrite app_nil_r. split; [reflexivity|]. split; [|reflexivity]. apply expanded_app; [exact A|]. apply ex_last. exact V.
    + cbn [length] in H. destruct var as [|v0 var].
      * destruct (IH (37 :: c') ltac:(cbn [length]; lia)) as (o & e & -> & X & Y). exists (a ++ 37 :: o), e. split; [reflexivity|]. split; [apply expanded_app; [exact A|apply ex_double; exact X]|].
        intro Z. rewrite (Y Z). reflexivity.
      * destruct (IH c' ltac:(lia)) as (o & e & -> & X & Y). destruct (env (v0 :: var)) as [v|] eqn:EV.
        -- exists (a ++ v ++ o), true. split; [reflexivity|]. split; [|discriminate]. apply expanded_app; [exact A|]. apply ex_var; [discriminate|exact V|exact EV|exact X].
        -- exists (a ++ (37 :: (v0 :: var) ++ [37]) ++ o), e. split; [reflexivity|]. split; [|intro Z; rewrite (Y Z); cbn [app]; rewrite <- ?app_assoc; reflexivity].
           apply expanded_app; [exact A|]. replace ((37 :: (v0 :: var) ++ [37]) ++ o) with (37 :: (v0 :: var) ++ 37 :: o) by (cbn [app]; rewrite <- app_assoc; reflexivity). apply ex_unknown; [discriminate|exact V|exact EV|exact X].
Qed.
Lemma percent_split (a b x y : text) : ~ In 37 a -> ~ In 37 b -> a ++ 37 :: x = b ++ 37 :: y -> a = b /\ x = y.
Proof.
  revert b. induction a as [|c a IH]; intros [|d b] A B E; cbn [app] in E.
  - injection E as ->. auto.
  - injection E as <- _. exfalso. apply B. left. reflexivity.
  - injection E as -> _. exfalso. apply A. left. reflexivity.
  - injection E as -> E. destruct (IH b) as [-> ->]; [intro I; apply A; right; exact I|intro I; apply B; right; exact I|exact E|auto].
Qed.
Lemma expanded_fun l o : expanded env l o -> forall o', expanded env l o' -> o = o'.
Proof.
  induction 1 as [|c l o NC X IH|n v l o NN NP EV X IH|n l o NN NP EV X IH|l o X IH|l NL]; intros o' Y.
  - inversion Y. reflexivity.
  - inversion Y; subst; try (f_equal; apply IH; assumption); try congruence.
  - remember (37 :: n ++ 37 :: l) as z eqn:Z. destruct Y as [|c l2 o2 NC Y|n2 v2 l2 o2 NN2 NP2 EV2 Y|n2 l2 o2 NN2 NP2 EV2 Y|l2 o2 Y|l2 NL]; try discriminate.
    + injection Z as -> _. congruence.
    + injection Z as Z. destruct (percent_split n2 n l2 l NP2 NP Z) as [-> ->]. rewrite EV in EV2. injection EV2 as <-. f_equal. apply IH. exact Y.
    + injection Z as Z. destruct (percent_split n2 n l2 l NP2 NP Z) as [-> ->]. congruence.
    + injection Z as Z. destruct n as [|m n]; [congruence|]. cbn [app] in Z. injection Z as <- _. exfalso. apply NP. left. reflexivity.
    + injection Z as ->. exfalso. apply NL. apply in_or_app. right. left. reflexivity.
  - remember (37 :: n ++ 37 :: l) as z eqn:Z. destruct Y as [|c l2 o2 NC Y|n2 v2 l2 o2 NN2 NP2 EV2 Y|n2 l2 o2 NN2 NP2 EV2 Y|l2 o2 Y|l2 NL]; try discriminate.
    + injection Z as -> _. congruence.
    + injection Z as Z. destruct (percent_split n2 n l2 l NP2 NP Z) as [-> ->]. congruence.
    + injection Z as Z. destruct (percent_split n2 n l2 l NP2 NP Z) as [-> ->]. f_equal. f_equal. f_equal. apply IH. exact Y.
    + injection Z as Z. destruct n as [|m n]; [congruence|]. cbn [app] in Z. injection Z as <- _. exfalso. apply NP. left. reflexivity.
    + injection Z as ->. exfalso. apply NL. apply in_or_app. right. left. reflexivity.
  - remember (37 :: 37 :: l) as z eqn:Z. destruct Y as [|c l2 o2 NC Y|n2 v2 l2 o2 NN2 NP2 EV2 Y|n2 l2 o2 NN2 NP2 EV2 Y|l2 o2 Y|l2 NL]; try discriminate.
    + injection Z as -> _. congruence.
    + injection Z as Z. destruct n2 as [|m n2]; [congruence|]. cbn [app] in Z. injection Z as -> _. exfalso. apply NP2. left. reflexivity.
    + injection Z as Z. destruct n2 as [|m n2]; [congruence|]. cbn [app] in Z. injection Z as -> _. exfalso. apply NP2. left. reflexivity.
    + injection Z as ->. f_equal. apply IH. exact Y.
    + injection Z as ->. exfalso. apply NL. left. reflexivity.
  - remember (37 :: l) as z eqn:Z. destruct Y as [|c l2 o2 NC Y|n2 v2 l2 o2 NN2 NP2 EV2 Y|n2 l2 o2 NN2 NP2 EV2 Y|l2 o2 Y|l2 NL2]; try discriminate.
    + injection Z as -> _. congruence.
    + injection Z as <-. exfalso. apply NL. apply in_or_app. right. left. reflexivity.
    + injection Z as <-. exfalso. apply NL. apply in_or_app. right. left. reflexivity.
    + injection Z as <-. exfalso. apply NL. left. reflexivity.
    + reflexivity.
Qed.
Lemma word_percent l : has 37 l = false -> ~ In 37 (word l).
Proof.
  intros H I. apply has_false in H. apply H. unfold word in I. apply in_map_iff in I as ((p & c) & E & F). cbn [snd] in E. subst c. apply filter_In in F as [F _]. apply in_combine_r in F. exact F.
Qed.
Lemma parse_ok line : exists r, parse_line_token env line = Some r /\ (forall t, r = Some t <-> holds env line t).
Proof.
  unfold parse_line_token. set (l := skip_blanks line). pose proof (proj2 (skip_trimmed line l) eq_refl) as TR.
  pose proof (token_ok l l [] true false [] eq_refl (fun _ => conj (Forall_nil _) eq_refl) ltac:(discriminate) eq_refl eq_refl) as T. change (quoted_at l (length (@nil N))) with false in T. cbn [length] in T.
  destruct (token true false false [] l) as [(out & e)|]; cbn [outcome] in T.
  - destruct T as (-> & -> & NB & NC). destruct (expand_ok (S (length (word l))) (word l) ltac:(lia)) as (o & e & X & Y & Z).
    assert (OT : one_token l) by (split; [intros p c; apply NB; lia|exact NC]).
    assert (V : (if has 37 l then match expand_env env (word l) with Some (t, true) => Some t | Some (_, false) => Some (word l) | None => None end else Some (word l)) = Some o).
    { destruct (has 37 l) eqn:H.
      - unfold expand_env. rewrite X. destruct e; [reflexivity|]. rewrite (Z eq_refl). reflexivity.
      - f_equal. apply expanded_fun with (2 := Y). rewrite <- (app_nil_r (word l)). apply expanded_app; [apply word_percent; exact H|apply ex_nil]. }
    rewrite V. assert (HH : forall t, holds env line t <-> t = o /\ o <> []).
    { intro t. split.
      - intros (l2 & T2 & _ & E2 & N2). apply skip_trimmed in T2. fold l in T2. subst l2. pose proof (expanded_fun _ _ Y _ E2) as <-. auto.
      - intros [-> N]. exists l. auto. }
    destruct o as [|c o].
    + exists None. split; [reflexivity|]. intro t. rewrite HH. split; [discriminate|]. intros [_ N]. congruence.
    + exists (Some (c :: o)). split; [reflexivity|]. intro t. rewrite HH. split; [intro H; injection H as <-; split; [reflexivity|discriminate]|intros [-> _]; reflexivity].
  - exists None. split; [reflexivity|]. intro t. split; [discriminate|]. intros (l2 & T2 & (B & C) & _). apply skip_trimmed in T2. fold l in T2. subst l2.
    destruct T as [(q & c & _ & N & BD)|T]; [exact (False_ind _ (B q c N BD))|contradiction].
Qed.

(** ** The previous directory *)
Variable alias : text -> bool.
Lemma lower_same c n : lowerN c = n -> 97 <= n <= 122 -> blank c = false.
Proof. unfold lowerN, blank. destruct ((65 <=? c) && (c <=? 90)) eqn:E; lia. Qed.
Lemma prefixi_iff p l : prefixi p l = true <-> exists w r, l = w ++ r /\ same_letters w p.
Proof.
  unfold prefixi. rewrite iequals_iff. split.
  - intro H. exists (firstn (length p) l), (skipn (length p) l). split; [symmetry; apply firstn_skipn|exact H].
  - intros (w & r & -> & S). replace (length p) with (length w) by (apply (f_equal (@length N)) in S; rewrite !map_length in S; exact S). rewrite (firstn_app_exact w r) by reflexivity. exact S.
Qed.
Lemma prefixi_skip p l : prefixi p l = true -> exists w, l = w ++ skipn (length p) l /\ same_letters w p.
Proof.
  intro H. unfold prefixi in H. apply iequals_iff in H. exists (firstn (length p) l). split; [symmetry; apply firstn_skipn|exact H].
Qed.
Lemma same_len w p : same_letters w p -> length w = length p.
Proof. intro S. apply (f_equal (@length N)) in S. rewrite !map_length in S. exact S. Qed.
Definition head_blank (l : text) : bool := match l with c :: _ => blank c | [] => false end.
Lemma blanks_head b l : blanks b -> head_blank (b ++ l) = match b with [] => head_blank l | _ => true end.
Proof. intro B. destruct B as [|c b C B]; [reflexivity|]. cbn [app head_blank]. apply blank_iff. exact C. Qed.
Lemma skip_dash b r : blanks b -> skip_blanks (b ++ 45 :: r) = 45 :: r.
Proof. intro B. rewrite skip_blanks_app by exact B. reflexivity. Qed.
Lemma head_skip l : head_blank (skip_blanks l) = false.
Proof. destruct (skip_blanks_split l) as (b & _ & _ & H). destruct (skip_blanks l); [reflexivity|exact H]. Qed.

(** What follows the command's name (140-165). *)
Definition after (scan : text) : option text :=
  let '(s, have) := if prefixi (tx "/d") (skip_blanks scan)
      then (skip_blanks (skipn 2 (skip_blanks scan)), head_blank (skipn 2 (skip_blanks scan))) else (skip_blanks scan, head_blank scan) in
  if have then Some s else None.
Lemma parse_cd_after line : parse_cd line =
  let l := skip_blanks line in
  if prefixi (tx "cd") l then match after (skipn 2 l) with Some s => (s, Some (tx "cd")) | None => (l, None) end
  else if prefixi (tx "chdir") l then match after (skipn 5 l) with Some s => (s, Some (tx "chdir")) | None => (l, None) end
  else (l, None).
Proof.
  unfold parse_cd, after. cbv zeta. unfold head_blank. destruct (prefixi (tx "cd") (skip_blanks line)).
  - destruct (prefixi (tx "/d") _); destruct (match _ with [] => false | c :: _ => blank c end); reflexivity.
  - destruct (prefixi (tx "chdir") (skip_blanks line)); [|reflexivity]. destruct (prefixi (tx "/d") _); destruct (match _ with [] => false | c :: _ => blank c end); reflexivity.
Qed.
Lemma after_sound scan s : after scan = Some s -> exists b2 sw b3, scan = b2 ++ sw ++ b3 ++ s /\ blanks b2 /\ blanks b3 /\ b3 <> [] /\ (sw = [] /\ b2 = [] \/ same_letters sw (tx "/d")).
Proof.
  unfold after. destruct (skip_blanks_split scan) as (b2 & B2 & E2 & H2). destruct (prefixi (tx "/d") (skip_blanks scan)) eqn:P.
  - apply prefixi_skip in P as (sw & E & S). change (length (tx "/d")) with 2%nat in E. set (x := skipn 2 (skip_blanks scan)) in *.
    destruct (skip_blanks_split x) as (b3 & B3 & E3 & H3). destruct (head_blank x) eqn:HB; [|discriminate]. intro H. injection H as <-.
    exists b2, sw, b3. split; [rewrite <- E3, <- E; exact E2|]. split; [exact B2|]. split; [exact B3|]. split; [|right; exact S].
    intros ->. cbn [app] in E3. rewrite E3, head_skip in HB. discriminate.
  - destruct (head_blank scan) eqn:HB; [|discriminate]. intro H. injection H as <-. exists [], [], b2. split; [exact E2|]. split; [apply Forall_nil|]. split; [exact B2|]. split; [|left; auto].
    intros ->. cbn [app] in E2. rewrite E2, head_skip in HB. discriminate.
Qed.
Lemma dash_not_prefix n r : (exists c m, n = c :: m /\ lowerN c <> 45) -> prefixi n (45 :: r) = false.
Proof.
  intros (c & m & -> & NE). destruct (prefixi _ _) eqn:P; [|reflexivity]. exfalso. apply prefixi_iff in P as (w & s & E & S). destruct w as [|d w]; [discriminate|]. injection E as <- _.
  unfold same_letters in S. cbn [map] in S. injection S as S _. change (lowerN 45) with 45 in S. congruence.
Qed.
Lemma after_complete b2 sw b3 b4 : blanks b2 -> blanks b3 -> b3 <> [] -> (sw = [] /\ b2 = [] \/ same_letters sw (tx "/d")) ->
  after (b2 ++ sw ++ b3 ++ 45 :: b4) = Some (45 :: b4).
Proof.
  intros B2 B3 N [[-> ->]|S]; unfold after.
  - cbn [app]. rewrite (skip_dash b3 b4 B3). rewrite dash_not_prefix by (exists 47, [100]; split; [reflexivity|discriminate]).
    rewrite (blanks_head b3 _ B3). destruct b3; [congruence|reflexivity].
  - rewrite skip_blanks_app by exact B2. assert (SK : skip_blanks (sw ++ b3 ++ 45 :: b4) = sw ++ b3 ++ 45 :: b4).
    { destruct sw as [|c sw]; [discriminate|]. cbn [app skip_blanks]. unfold same_letters in S. cbn [map] in S. injection S as S _. replace (blank c) with false; [reflexivity|].
      symmetry. change (lowerN 47) with 47 in S. unfold lowerN, blank in *. destruct ((65 <=? c) && (c <=? 90)) eqn:Q; lia. }
    rewrite SK. rewrite (proj2 (prefixi_iff _ _) (ex_intro _ sw (ex_intro _ _ (conj eq_refl S)))). change 2%nat with (length (tx "/d")). rewrite <- (same_len _ _ S).
    rewrite (skipn_app_exact sw (b3 ++ 45 :: b4)) by reflexivity. rewrite (skip_dash b3 b4 B3), (blanks_head b3 _ B3). destruct b3; [congruence|reflexivity].
Qed.
Lemma dash_rest r : (match r with c :: r => (c =? 45) && match skip_blanks r with [] => true | _ => false end | [] => false end) = true <-> exists b, r = 45 :: b /\ blanks b.
Proof.
  split.
  - destruct r as [|c r]; [discriminate|]. intro H. apply andb_true_iff in H as [H1 H2]. apply N.eqb_eq in H1. subst c. exists r. split; [reflexivity|]. apply skip_blanks_nil. destruct (skip_blanks r); [reflexivity|discriminate].
  - intros (b & -> & B). rewrite (skip_blanks_all b B). reflexivity.
Qed.
Lemma dash_ok only line : is_cd_dash alias only line = true <-> dash alias only line.
Proof.
  unfold is_cd_dash. rewrite parse_cd_after. cbv zeta. destruct (skip_blanks_split line) as (b1 & B1 & E1 & H1).
  assert (CMD : forall n s, In n [tx "cd"; tx "chdir"] -> prefixi n (skip_blanks line) = true -> after (skipn (length n) (skip_blanks line)) = Some s ->
     only && alias n = false -> (exists b, s = 45 :: b /\ blanks b) -> dash alias only line).
  { intros n s I P A O (b4 & -> & B4). apply prefixi_skip in P as (cmd & E & S). apply after_sound in A as (b2 & sw & b3 & E2 & B2 & B3 & N3 & SW).
    rewrite E1, E, E2. apply (d_cd alias only b1 cmd b2 sw b3 b4 n); auto. intro OT. rewrite OT in O. exact O. }
  assert (BARE : only = false -> (exists b, skip_blanks line = 45 :: b /\ blanks b) -> dash alias only line).
  { intros O (b & E & B). rewrite E1, E. apply d_bare; auto. }
  split.
  - destruct (prefixi (tx "cd") (skip_blanks line)) eqn:P1.
    + destruct (after (skipn 2 (skip_blanks line))) as [s|] eqn:A.
      * destruct (only && alias (tx "cd")) eqn:O; [discriminate|]. intro H. apply dash_rest in H. apply (CMD (tx "cd") s); auto. left. reflexivity.
      * destruct only; cbn [andb]; [discriminate|]. intro H. apply dash_rest in H. auto.
    + destruct (prefixi (tx "chdir") (skip_blanks line)) eqn:P2.
      * destruct (after (skipn 5 (skip_blanks line))) as [s|] eqn:A.
        -- destruct (only && alias (tx "chdir")) eqn:O; [discriminate|]. intro H. apply dash_rest in H. apply (CMD (tx "chdir") s); auto. right. left. reflexivity.
        -- destruct only; cbn [andb]; [discriminate|]. intro H. apply dash_rest in H. auto.
      * destruct only; cbn [andb]; [discriminate|]. intro H. apply dash_rest in H. auto.
  - clear CMD BARE E1 B1 b1 H1. intro D. destruct D as [b1 b2 O B1 B2|b1 cmd b2 sw b3 b4 n B1 B2 B3 B4 I S O SW N3].
    + subst only. rewrite (skip_dash b1 b2 B1). rewrite !dash_not_prefix by (eexists; eexists; split; [reflexivity|discriminate]). cbn [andb]. rewrite (skip_blanks_all b2 B2). reflexivity.
    + set (X := b2 ++ sw ++ b3 ++ 45 :: b4). assert (SK : skip_blanks (b1 ++ cmd ++ X) = cmd ++ X).
      { rewrite skip_blanks_app by exact B1. destruct cmd as [|c cmd]; [destruct I as [<-|[<-|[]]]; discriminate|]. cbn [app skip_blanks]. replace (blank c) with false; [reflexivity|]. symmetry.
        apply (lower_same c 99); [|lia]. destruct I as [<-|[<-|[]]]; unfold same_letters in S; cbn [map] in S; injection S as S _; exact S. }
      change (b1 ++ cmd ++ b2 ++ sw ++ b3 ++ 45 :: b4) with (b1 ++ cmd ++ X). rewrite SK. pose proof (after_complete b2 sw b3 b4 B2 B3 N3 SW) as AC. fold X in AC. pose proof (same_len _ _ S) as LN.
      assert (PN : prefixi n (cmd ++ X) = true) by (apply prefixi_iff; exists cmd, X; auto).
      assert (SKN : skipn (length n) (cmd ++ X) = X) by (apply skipn_app_exact; symmetry; exact LN).
      assert (OA : only && alias n = false) by (destruct only; [exact (O eq_refl)|reflexivity]).
      assert (RR : exists b, 45 :: b4 = 45 :: b /\ blanks b) by eauto. apply dash_rest in RR.
      destruct I as [<-|[<-|[]]].
      * rewrite PN. change 2%nat with (length (tx "cd")). rewrite SKN, AC, OA. exact RR.
      * replace (prefixi (tx "cd") (cmd ++ X)) with false.
        -- rewrite PN. change 5%nat with (length (tx "chdir")). rewrite SKN, AC, OA. exact RR.
        -- symmetry. destruct (prefixi (tx "cd") (cmd ++ X)) eqn:Q; [|reflexivity]. exfalso. apply prefixi_iff in Q as (w & s & E & SWW).
           destruct cmd as [|c1 [|c2 cmd]]; try discriminate LN. destruct w as [|w1 [|w2 w]]; try (apply same_len in SWW; discriminate SWW). cbn [app] in E. injection E as -> -> _.
           unfold same_letters in S, SWW. cbn [map] in S, SWW. change (map lowerN (tx "chdir")) with [99; 104; 100; 105; 114] in S. change (map lowerN (tx "cd")) with [99; 100] in SWW.
           injection S as _ S _. injection SWW as _ SW2 _. congruence.
Qed.
End Env.
