From Verif Require Import Base UtfModel UtfSpec UtfProofs TokProofs CmpModel CmpSpec.

(** ** normalize_accent is the lookup in its table *)

Fixpoint increasing (l : list (N * N)) : bool :=
  match l with
  | [] => true
  | (a, _) :: t => match t with (b, _) :: _ => (a <? b)%N | [] => true end && increasing t
  end.

Lemma increasing_nth l : increasing l = true -> forall i j, i < j < length l ->
  (fst (nth i l (0, 0)) < fst (nth j l (0, 0)))%N.
Proof.
  intro H.
  assert (Hstep : forall i, S i < length l -> (fst (nth i l (0, 0)) < fst (nth (S i) l (0, 0)))%N).
  { revert H. induction l as [|[a n] l IH]; intros H i Hi; [cbn in Hi; lia|].
    destruct l as [|[b m] l]; [cbn in Hi; lia|]. change ((a <? b)%N && increasing ((b, m) :: l) = true) in H. apply andb_true_iff in H as [H1 H2].
    destruct i as [|i]; [cbn; lia|]. apply (IH H2 i). cbn in Hi |- *. lia. }
  intros i j [Hij Hj]. induction j as [|j IH]; [lia|].
  destruct (Nat.eq_dec i j) as [->|Hne]; [apply Hstep; auto|].
  specialize (IH ltac:(lia) ltac:(lia)). specialize (Hstep j ltac:(lia)). lia.
Qed.

Lemma assoc_none l c : (forall i, i < length l -> fst (nth i l (0, 0)%N) <> c) -> assoc l c = c.
Proof.
  induction l as [|[a n] l IH]; intros H; [reflexivity|]. cbn [assoc].
  destruct (N.eqb_spec a c) as [->|Hne]; [exfalso; apply (H 0); cbn; [lia|reflexivity]|].
  apply IH. intros i Hi. apply (H (S i)). cbn; lia.
Qed.

Lemma assoc_some l i n : increasing l = true -> i < length l -> snd (nth i l (0, 0)%N) = n ->
  assoc l (fst (nth i l (0, 0)%N)) = n.
Proof.
  intros Hinc. pose proof (increasing_nth l Hinc) as Hlt. clear Hinc. revert i Hlt.
  induction l as [|[a m] l IH]; intros i Hlt Hi Hn; [cbn in Hi; lia|]. cbn [assoc].
  destruct i as [|i]; cbn [nth fst snd] in *; [rewrite N.eqb_refl; auto|].
  pose proof (Hlt 0 (S i) ltac:(cbn in *; lia)) as H0. cbn [nth fst] in H0.
  destruct (N.eqb_spec a (fst (nth i l (0, 0)%N))) as [He|_]; [lia|].
  apply IH; auto; [|cbn in Hi; lia]. intros x y Hxy. apply (Hlt (S x) (S y)). cbn; lia.
Qed.

Lemma accents_increasing : increasing accents = true.
Proof. vm_compute. reflexivity. Qed.

Lemma accent_search_ok fuel : forall lo hi c, hi - lo < fuel -> hi <= length accents ->
  (forall i, i < length accents -> fst (nth i accents (0, 0)%N) = c -> lo <= i < hi) ->
  accent_search fuel lo hi c = assoc accents c.
Proof.
  pose proof (increasing_nth _ accents_increasing) as Hinc.
  pose proof (fun i => assoc_some accents i) as Hsome.
  generalize accents_increasing. intro Hacc.
  remember accents as tbl eqn:Et. 
  induction fuel as [|fuel IH]; intros lo hi c Hf Hhi Hin; [lia|]. cbn [accent_search]. rewrite <- Et.
  destruct (Nat.ltb_spec lo hi) as [Hlt|Hge].
  - cbv zeta. assert (Hmid : lo <= (lo + hi) / 2 < hi).
    { pose proof (Nat.div_mod (lo + hi) 2 ltac:(lia)). pose proof (Nat.mod_upper_bound (lo + hi) 2 ltac:(lia)). lia. }
    set (mid := (lo + hi) / 2) in *. destruct (nth mid tbl (0, 0)%N) as [a n] eqn:En.
    destruct (N.eqb_spec c a) as [->|Hne].
    + specialize (Hsome mid n Hacc ltac:(lia)). rewrite En in Hsome. cbn in Hsome. symmetry; auto.
    + destruct (N.ltb_spec c a) as [Hca|Hca].
      * apply IH; [lia|lia|]. intros i Hi Hc. specialize (Hin i Hi Hc).
        destruct (Nat.lt_trichotomy i mid) as [?|[->|Hgt]]; [lia|rewrite En in Hc; cbn in Hc; lia|].
        specialize (Hinc mid i ltac:(lia)). rewrite En, Hc in Hinc. cbn in Hinc. lia.
      * apply IH; [lia|lia|]. intros i Hi Hc. specialize (Hin i Hi Hc).
        destruct (Nat.lt_trichotomy i mid) as [Hl|[->|Hgt]]; [|rewrite En in Hc; cbn in Hc; lia|lia].
        specialize (Hinc i mid ltac:(lia)). rewrite En, Hc in Hinc. cbn in Hinc. lia.
  - symmetry. apply assoc_none. intros i Hi Hc. specialize (Hin i Hi Hc). lia.
Qed.

Lemma normalize_assoc c : normalize_accent c = assoc accents c.
Proof. apply accent_search_ok; [lia|lia|]. intros i Hi _. lia. Qed.

Definition no_slash (l : list (N * N)) : bool := forallb (fun x => negb (N.eqb (fst x) 47) && negb (N.eqb (snd x) 47)) l.
Lemma assoc_slash l c : no_slash l = true -> (assoc l c = 47 <-> c = 47)%N.
Proof.
  induction l as [|[a n] l IH]; intros H; cbn [assoc]; [tauto|]. cbn [no_slash forallb fst snd] in H.
  apply andb_true_iff in H as [H1 H2]. destruct (N.eqb_spec a c) as [->|]; [lia|]. apply IH. exact H2.
Qed.
Lemma accent_slash c : (assoc accents c = 47 <-> c = 47)%N.
Proof. apply assoc_slash. vm_compute. reflexivity. Qed.

(** ** The comparison *)

Lemma is_sep c : is_separator c = true <-> sep c.
Proof. unfold is_separator, sep. lia. Qed.

Opaque accents normalize_accent.

Lemma key_fold lower mode fuzzy exact_slash c :
  key lower mode fuzzy exact_slash c =
  if fuzzy then assoc accents (fold_char lower mode exact_slash c) else fold_char lower mode exact_slash c.
Proof.
  unfold key, fold_char. cbv zeta.
  assert (H : (if Nat.ltb 0 mode then if (65535 <? c)%N then c else lower c else c) =
              match mode with O => c | _ => if (c <? 65536)%N then lower c else c end).
  { destruct mode; [reflexivity|]. change (Nat.ltb 0 (S mode)) with true. cbv iota.
    destruct (N.ltb_spec 65535 c), (N.ltb_spec c 65536); auto; lia. }
  rewrite H. destruct mode as [|[|m]]; reflexivity.
Qed.

Lemma key_slash lower mode fuzzy exact_slash c :
  (key lower mode fuzzy exact_slash c = 47 <-> fold_char lower mode exact_slash c = 47)%N.
Proof. rewrite key_fold. destruct fuzzy; [apply accent_slash|tauto]. Qed.

Section Cmp.
Variable lower : N -> N.
Variable mode : nat.
Variable fuzzy exact_slash : bool.
Notation k := (key lower mode fuzzy exact_slash).
Notation fc := (fold_char lower mode exact_slash).

Section Texts.
Variables ml mr : list N.
Variables el er : option nat.
Variable enc : N -> list N.
Variable nl nr : nat -> option (N * nat).
Variable okc : N -> Prop.
Hypothesis Henc : forall c, okc c -> enc c <> [] /\ c <> 0%N.
(** A well formed text is read character by character. *)
Hypothesis Hnl : forall p vs, Forall okc vs -> text_at ml el p (flat_map enc vs) ->
  exists p', nl p = Some (match vs with [] => 0%N | v :: _ => v end, p') /\
             p' = p + match vs with [] => 0 | v :: _ => length (enc v) end.
Hypothesis Hnr : forall p vs, Forall okc vs -> text_at mr er p (flat_map enc vs) ->
  exists p', nr p = Some (match vs with [] => 0%N | v :: _ => v end, p') /\
             p' = p + match vs with [] => 0 | v :: _ => length (enc v) end.

Notation len vs := (length (flat_map enc vs)).

Lemma len_cons v vs : len (v :: vs) = length (enc v) + len vs.
Proof. cbn [flat_map]. apply app_length. Qed.
Lemma len_app a b : len (a ++ b) = len a + len b.
Proof. rewrite flat_map_app. apply app_length. Qed.

Lemma skip_seps_ok mem e nextf : (forall p vs, Forall okc vs -> text_at mem e p (flat_map enc vs) ->
  exists p', nextf p = Some (match vs with [] => 0%N | v :: _ => v end, p') /\
             p' = p + match vs with [] => 0 | v :: _ => length (enc v) end) ->
  forall s fuel p r, Forall okc (s ++ r) -> Forall sep s -> match r with x :: _ => ~ sep x | [] => True end ->
  text_at mem e p (flat_map enc (s ++ r)) -> length s < fuel ->
  skip_seps nextf fuel p = Some (p + len s) /\ text_at mem e (p + len s) (flat_map enc r).
Proof.
  intros Hn. induction s as [|c s IH]; intros fuel p r Ho Hs Hr Ht Hf; (destruct fuel as [|fuel]; [cbn in Hf; lia|]).
  - cbn [app] in *. cbn [skip_seps]. destruct (Hn p r Ho Ht) as (p' & -> & Hp'). cbn [flat_map length].
    rewrite Nat.add_0_r. split; [|exact Ht]. destruct r as [|x r].
    + reflexivity.
    + destruct (is_separator x) eqn:E; [apply is_sep in E; contradiction|reflexivity].
  - cbn [app] in *. cbn [skip_seps]. destruct (Hn p _ Ho Ht) as (p' & -> & ->).
    assert (is_separator c = true) as -> by (apply is_sep; exact (Forall_inv Hs)).
    cbn [flat_map] in Ht. apply text_at_suffix in Ht.
    destruct (IH fuel (p + length (enc c)) r) as [H1 H2]; auto.
    + exact (Forall_inv_tail Ho).
    + exact (Forall_inv_tail Hs).
    + cbn in Hf; lia.
    + rewrite len_cons, Nat.add_assoc. auto.
Qed.

Lemma enc_pos c : okc c -> 0 < length (enc c).
Proof. intro H. apply Henc in H as [H _]. destruct (enc c); [contradiction|cbn; lia]. Qed.

Lemma count_len vs : Forall okc vs -> length vs <= len vs.
Proof.
  induction vs as [|v vs IH]; intro H; [cbn; lia|]. rewrite len_cons. cbn [length].
  pose proof (enc_pos _ (Forall_inv H)). specialize (IH (Forall_inv_tail H)). lia.
Qed.

Lemma cmp_loop_ok : forall fuel l r esl esr p q, Forall okc l -> Forall okc r ->
  elements k l esl -> elements k r esr ->
  text_at ml el p (flat_map enc l) -> text_at mr er q (flat_map enc r) -> len l + len r < fuel ->
  let n := agree (map fst esl) (map fst esr) in
  exists l' r', cmp_loop lower nl nr mode fuzzy exact_slash fuel p q =
      Some (p + len (flat_map snd (firstn n esl)), q + len (flat_map snd (firstn n esr))) /\
    l = flat_map snd (firstn n esl) ++ l' /\ r = flat_map snd (firstn n esr) ++ r' /\
    (l' = [] <-> n = length esl) /\ (r' = [] <-> n = length esr).
Proof.
  induction fuel as [|fuel IH]; intros l r esl esr p q Hol Hor Hel Her Htl Htr Hf; [lia|]. cbv zeta.
  cbn [cmp_loop].
  destruct (Hnl p l Hol Htl) as (p' & -> & Hp'). destruct (Hnr q r Hor Htr) as (q' & -> & Hq').
  assert (Hstop : agree (map fst esl) (map fst esr) = 0 -> exists l' r',
    Some (p, q) = Some (p + len (flat_map snd (firstn 0 esl)), q + len (flat_map snd (firstn 0 esr))) /\
    l = flat_map snd (firstn 0 esl) ++ l' /\ r = flat_map snd (firstn 0 esr) ++ r' /\
    (l' = [] <-> 0 = length esl) /\ (r' = [] <-> 0 = length esr)).
  { intros _. exists l, r. cbn [firstn flat_map length app]. rewrite !Nat.add_0_r. split; [auto|]. split; [auto|].
    split; [auto|]. split; [inversion Hel|inversion Her]; subst; cbn; split; intro; try discriminate; auto. }
  destruct l as [|c l]; [|destruct r as [|d r]].
  - cbn [orb N.eqb]. assert (agree (map fst esl) (map fst esr) = 0) as -> by (inversion Hel; subst; reflexivity).
    apply Hstop. inversion Hel; subst; reflexivity.
  - change (0 =? 0)%N with true. rewrite orb_true_r.
    assert (agree (map fst esl) (map fst esr) = 0) as E by (inversion Her; subst; destruct (map fst esl); reflexivity).
    rewrite E. apply Hstop. exact E.
  - destruct (Henc c (Forall_inv Hol)) as [_ Hc0]. destruct (Henc d (Forall_inv Hor)) as [_ Hd0].
    replace (c =? 0)%N with false by lia. replace (d =? 0)%N with false by lia. cbn [orb]. cbv zeta.
    pose proof (enc_pos _ (Forall_inv Hol)) as Hpc. pose proof (enc_pos _ (Forall_inv Hor)) as Hpd.
    rewrite !len_cons in Hf.
    pose proof (text_at_suffix _ _ _ _ _ Htl) as Htl'. pose proof (text_at_suffix _ _ _ _ _ Htr) as Htr'.
    subst p' q'.
    (* the first elements *)
    assert (Hhl : exists sl rl el', c :: l = (c :: sl) ++ rl /\ esl = (k c, c :: sl) :: el' /\ elements k rl el' /\
       Forall sep sl /\ (k c = 47%N -> match rl with x :: _ => ~ sep x | [] => True end) /\ (k c <> 47%N -> sl = [])).
    { inversion Hel as [|? ? ? Hk He|? s rr ? Hk Hs Hr He]; subst.
      - exists [], l, es. split; [auto|]. split; [auto|]. split; [auto|]. split; [auto|]. split; [intro; contradiction|auto].
      - exists s, rr, es. split; [auto|]. split; [rewrite Hk; auto|]. split; [auto|]. split; [auto|].
        split; [auto|]. intro; contradiction. }
    assert (Hhr : exists sr rr er', d :: r = (d :: sr) ++ rr /\ esr = (k d, d :: sr) :: er' /\ elements k rr er' /\
       Forall sep sr /\ (k d = 47%N -> match rr with x :: _ => ~ sep x | [] => True end) /\ (k d <> 47%N -> sr = [])).
    { inversion Her as [|? ? ? Hk He|? s rr ? Hk Hs Hr He]; subst.
      - exists [], r, es. split; [auto|]. split; [auto|]. split; [auto|]. split; [auto|]. split; [intro; contradiction|auto].
      - exists s, rr, es. split; [auto|]. split; [rewrite Hk; auto|]. split; [auto|]. split; [auto|].
        split; [auto|]. intro; contradiction. }
    destruct Hhl as (sl & rl & el' & Hl & -> & Hel' & Hsl & Hrl & Hsl0).
    destruct Hhr as (sr & rr & er' & Hr & -> & Her' & Hsr & Hrr & Hsr0).
    injection Hl as Hl. injection Hr as Hr.
    cbn [map fst agree].
    (* going on after a match *)
    assert (Hgo : forall x, k c = k d -> ((x =? 47)%N = true <-> k c = 47%N) ->
      let n := agree (map fst el') (map fst er') in
      exists l' r',
        (if (x =? 47)%N then
           match skip_seps nl fuel (p + length (enc c)), skip_seps nr fuel (q + length (enc d)) with
           | Some p2, Some q2 => cmp_loop lower nl nr mode fuzzy exact_slash fuel p2 q2
           | _, _ => None
           end
         else cmp_loop lower nl nr mode fuzzy exact_slash fuel (p + length (enc c)) (q + length (enc d))) =
        Some (p + len (flat_map snd (firstn (S n) ((k c, c :: sl) :: el'))),
              q + len (flat_map snd (firstn (S n) ((k d, d :: sr) :: er')))) /\
        c :: l = flat_map snd (firstn (S n) ((k c, c :: sl) :: el')) ++ l' /\
        d :: r = flat_map snd (firstn (S n) ((k d, d :: sr) :: er')) ++ r' /\
        (l' = [] <-> S n = length ((k c, c :: sl) :: el')) /\ (r' = [] <-> S n = length ((k d, d :: sr) :: er'))).
    { intros x Hkk Hx n.
      pose proof (Forall_inv_tail Hol) as Hol'. pose proof (Forall_inv_tail Hor) as Hor'.
      subst l r. fold (flat_map enc) in Htl', Htr'.
      assert (Hnext : (if (x =? 47)%N then
           match skip_seps nl fuel (p + length (enc c)), skip_seps nr fuel (q + length (enc d)) with
           | Some p2, Some q2 => cmp_loop lower nl nr mode fuzzy exact_slash fuel p2 q2
           | _, _ => None
           end
         else cmp_loop lower nl nr mode fuzzy exact_slash fuel (p + length (enc c)) (q + length (enc d))) =
         cmp_loop lower nl nr mode fuzzy exact_slash fuel (p + length (enc c) + len sl) (q + length (enc d) + len sr) /\
         text_at ml el (p + length (enc c) + len sl) (flat_map enc rl) /\
         text_at mr er (q + length (enc d) + len sr) (flat_map enc rr)).
      { pose proof (count_len _ Hol') as Hcl. pose proof (count_len _ Hor') as Hcr.
        rewrite !app_length in Hcl, Hcr.
        destruct (x =? 47)%N eqn:Ex.
        - destruct Hx as [Hx _]. specialize (Hx eq_refl).
          destruct (skip_seps_ok ml el nl Hnl sl fuel (p + length (enc c)) rl) as [H1 H2]; [auto|auto|apply Hrl; auto|auto|lia|].
          destruct (skip_seps_ok mr er nr Hnr sr fuel (q + length (enc d)) rr) as [H3 H4];
            [auto|auto|apply Hrr; congruence|auto|lia|].
          rewrite H1, H3. auto.
        - assert (k c <> 47%N) as Hne. { intro H. apply Hx in H. discriminate. }
          rewrite (Hsl0 Hne), (Hsr0 ltac:(congruence)) in *. cbn [app flat_map length] in *. rewrite !Nat.add_0_r. auto. }
      destruct Hnext as (Hne & Htl2 & Htr2). rewrite Hne.
      rewrite !len_app in Hf. apply Forall_app in Hol' as [_ Hol']. apply Forall_app in Hor' as [_ Hor'].
      destruct (IH rl rr el' er' _ _ Hol' Hor' Hel' Her' Htl2 Htr2 ltac:(lia)) as (l' & r' & Hc & Hl & Hr & Hcl & Hcr).
      fold n in Hc, Hl, Hr, Hcl, Hcr. exists l', r'. rewrite Hc. cbn [firstn flat_map snd length app].
      rewrite Hl, Hr at 1. rewrite !flat_map_app, !app_length, <- !app_assoc. split; [|split; [|split; [|split]]].
      - f_equal. f_equal; lia.
      - rewrite <- Hl. reflexivity.
      - rewrite <- Hr. reflexivity.
      - rewrite Hcl. lia.
      - rewrite Hcr. lia. }
    destruct (N.eqb_spec (k c) (k d)) as [Hkk|Hkk].
    + destruct (N.eqb_spec (fc c) (fc d)) as [Hfe|Hfe].
      * apply Hgo; [exact Hkk|]. rewrite N.eqb_eq. symmetry. apply key_slash.
      * rewrite key_fold, (key_fold _ _ _ _ d) in Hkk. destruct fuzzy eqn:Ez; [|contradiction]. cbn [negb].
        rewrite !normalize_assoc, Hkk, N.eqb_refl. rewrite <- Hkk.
        apply Hgo; [rewrite !key_fold; exact Hkk|]. rewrite N.eqb_eq, key_fold. cbv iota. apply iff_refl.
    + rewrite key_fold, (key_fold _ _ _ _ d) in Hkk. destruct (N.eqb_spec (fc c) (fc d)) as [Hfe|Hfe]; [rewrite Hfe in Hkk; contradiction|].
      assert (Hs0 : agree (map fst ((k c, c :: sl) :: el')) (map fst ((k d, d :: sr) :: er')) = 0).
      { cbn [map fst agree]. rewrite key_fold, (key_fold _ _ _ _ d). destruct (N.eqb_spec (if fuzzy then assoc accents (fc c) else fc c)
          (if fuzzy then assoc accents (fc d) else fc d)); [contradiction|reflexivity]. }
      destruct fuzzy eqn:Ez; cbn [negb].
      * rewrite !normalize_assoc. destruct (N.eqb_spec (assoc accents (fc c)) (assoc accents (fc d))) as [He|_]; [exact (False_ind _ (Hkk He))|].
        apply Hstop; exact Hs0.
      * apply Hstop; exact Hs0.
Qed.
End Texts.

End Cmp.

Lemma elements_exist k : forall n vs, length vs <= n -> exists es, elements k vs es.
Proof.
  induction n as [|n IH]; intros vs Hn.
  - destruct vs; [|cbn in Hn; lia]. exists []. constructor.
  - destruct vs as [|c r]; [exists []; constructor|]. cbn in Hn.
    destruct (N.eq_dec (k c) 47) as [He|He].
    + assert (Hsp : exists s r', r = s ++ r' /\ Forall sep s /\ match r' with x :: _ => ~ sep x | [] => True end).
      { clear. induction r as [|x r (s & r' & -> & Hs & Hr)]; [exists [], []; auto|].
        destruct (is_separator x) eqn:E.
        - exists (x :: s), r'. split; [auto|]. split; [constructor; auto; apply is_sep; auto|auto].
        - exists [], (x :: s ++ r'). split; [auto|]. split; [auto|]. intro H. apply is_sep in H. congruence. }
      destruct Hsp as (s & r' & -> & Hs & Hr). rewrite app_length in Hn.
      destruct (IH r' ltac:(lia)) as [es Hes]. exists ((47%N, c :: s) :: es). constructor; auto.
    + destruct (IH r ltac:(lia)) as [es Hes]. exists ((k c, [c]) :: es). constructor; auto.
Qed.

Lemma elements_fun k vs : forall es es', elements k vs es -> elements k vs es' -> es = es'.
Proof.
  intros es es' H. revert es'. induction H as [|c r es Hk He IH|c s r es Hk Hs Hr He IH]; intros es' H'.
  - inversion H'. reflexivity.
  - inversion H' as [|? ? ? Hk' He'|? s' r' ? Hk' Hs' Hr' He']; subst; [|contradiction]. f_equal. auto.
  - inversion H' as [|? ? ? Hk' He'|? s' r' ? Hk' Hs' Hr' He']; subst; [contradiction|].
    assert (s = s' /\ r = r') as [<- <-].
    { match goal with E : s' ++ r' = s ++ r |- _ => rename E into H3; symmetry in H3 end.
      clear - Hs Hr Hs' Hr' H3. revert s' Hs' H3. induction s as [|x s IH]; intros [|y s'] Hs' E; cbn in E.
      - auto.
      - subst r. exfalso. apply Hr. exact (Forall_inv Hs').
      - subst r'. exfalso. apply Hr'. exact (Forall_inv Hs).
      - injection E as -> E. destruct (IH (Forall_inv_tail Hs) s' (Forall_inv_tail Hs') E) as [-> ->]. auto. }
    f_equal. auto.
Qed.

Lemma agree_le a : forall b, agree a b <= length a /\ agree a b <= length b.
Proof.
  induction a as [|x a IH]; intros [|y b]; cbn; try lia. destruct (N.eqb x y); cbn; [|lia]. specialize (IH b). lia.
Qed.
Lemma agree_full a : forall b, agree a b = length a -> agree a b = length b -> a = b.
Proof.
  induction a as [|x a IH]; intros [|y b]; cbn; try discriminate; auto.
  destruct (N.eqb_spec x y) as [->|]; [|discriminate]. intros H1 H2. f_equal. apply IH; lia.
Qed.
Lemma agree_refl a : agree a a = length a.
Proof. induction a as [|x a IH]; cbn; auto. rewrite N.eqb_refl. auto. Qed.
