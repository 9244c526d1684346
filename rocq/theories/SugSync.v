(** C71: the suggestion list sees the current suggestions; requests are not repeated; deleting history entries. *)
From Verif Require Import Base UtfModel UtfSpec UtfProofs TokProofs CmpModel CmpSpec CmpProofs CmpProperties
  SugModel SugSpec SugProofs SugProperties.

(** What happens to the manager [fst] and the list's copy of the suggestions [snd].  The settings may change at any
    time, so each operation has its own. *)
Inductive op :=
| OSet (e : env) (line : list N) (w : nat) (items : list item)     (* a generator's result arrives *)
| OClear                                                           (* clear_suggestion *)
| OSuppress (b : buf)
| OInsert (e : env) (fuel : nat) (a : action) (b : buf)            (* the user accepts *)
| OAsk (busy selected rubbed : bool) (w : nat) (b : buf)           (* the editor asks whether to suggest *)
| OGet (e : env)                                                   (* the list fetches the suggestions *)
| ORemove (idx : Z).                                               (* the list deletes a history entry *)

Section Sync.
Variable lower : N -> N.
Variable forward_word : list N -> nat -> nat.

Definition step (s : mgr * sugs) (o : op) : option (mgr * sugs) :=
  let '(g, out) := s in
  match o with
  | OSet e line w items => match set lower e line w items g with Some g' => Some (g', out) | None => None end
  | OClear => Some (g_clear g, out)
  | OSuppress b => Some (g_suppressed g b, out)
  | OInsert e fuel a b => match insert lower forward_word e fuel a g b with Some (_, g', _) => Some (g', out) | None => None end
  | OAsk busy selected rubbed w b => Some (snd (can_suggest busy selected rubbed w g b), out)
  | OGet e => Some (g, snd (get e g out))
  | ORemove idx => Some (g, u_remove_history out idx)
  end.
Fixpoint run (s : mgr * sugs) (ops : list op) : option (mgr * sugs) :=
  match ops with
  | [] => Some s
  | o :: r => match step s o with Some s' => run s' r | None => None end
  end.

Lemma copy_items u : u_items (u_copy u) = u_items u /\ u_gen (u_copy u) = u_gen u /\ u_line (u_copy u) = u_line u.
Proof.
  assert (H : forall l v, u_items (fold_left u_add l v) = u_items v ++ l /\ u_line (fold_left u_add l v) = u_line v).
  { induction l as [|x l IH]; intro v; [rewrite app_nil_r; auto|]. cbn [fold_left]. destruct (IH (u_add v x)) as [-> ->].
    cbn [u_add u_items u_line]. rewrite <- app_assoc. auto. }
  unfold u_copy. destruct (H (u_items u) (mkSugs (u_line u) [] 0 false)) as [H1 H2].
  cbn [u_items u_line u_gen] in *. rewrite H1, H2. auto.
Qed.

(** What an operation can do to the manager's vector. *)
Definition kept (g g' : mgr) : Prop :=
  u_items (g_sugs g') = u_items (g_sugs g) /\ u_gen (g_sugs g') = u_gen (g_sugs g) /\ g_gen g' = g_gen g.
Definition dropped (g g' : mgr) : Prop :=
  u_items (g_sugs g') = [] /\ u_gen (g_sugs g') = 0%N /\ g_gen g' = next_gen (g_gen g).

Lemma clear_dropped g : dropped g (g_clear g).
Proof. split; [reflexivity|split; reflexivity]. Qed.
Lemma suppressed_dropped g b : dropped g (g_suppressed g b).
Proof. split; [reflexivity|split; reflexivity]. Qed.
Lemma kept_refl g : kept g g.
Proof. split; [reflexivity|split; reflexivity]. Qed.

Lemma rest_effect e fuel a g b off text w q0 q quote x g' b' :
  insert_rest forward_word e fuel a g b off text w q0 q quote = Some (x, g', b') -> kept g g' \/ dropped g g'.
Proof.
  unfold insert_rest. cbv zeta. intro H.
  repeat match type of H with
  | context [match ?t with _ => _ end] => destruct t
  end; try discriminate; injection H as <- <- <-;
    first [right; apply suppressed_dropped | left; split; [reflexivity|split; reflexivity]].
Qed.
Lemma insert_effect e fuel a g b x g' b' :
  insert lower forward_word e fuel a g b = Some (x, g', b') -> kept g g' \/ dropped g g'.
Proof.
  unfold insert. cbv zeta. intro H.
  repeat match type of H with
  | insert_rest _ _ _ _ _ _ _ _ _ _ _ _ = _ => apply rest_effect in H; exact H
  | Some _ = Some _ => injection H as <- <- <-;
      first [left; apply kept_refl | right; apply suppressed_dropped | right; apply clear_dropped]
  | None = Some _ => discriminate
  | context [match ?t with _ => _ end] =>
      match t with context [match ?u with _ => _ end] => fail 1 | _ => destruct t end
  | context [match ?t with _ => _ end] => destruct t
  end.
Qed.
Lemma ask_effect busy selected rubbed w g b :
  kept g (snd (can_suggest busy selected rubbed w g b)) \/ dropped g (snd (can_suggest busy selected rubbed w g b)).
Proof.
  unfold can_suggest. cbv zeta.
  destruct (g_paused g); [left; apply kept_refl|]. destruct busy; [right; apply clear_dropped|].
  destruct (negb _); [right; apply clear_dropped|]. destruct selected; [left; apply kept_refl|].
  destruct (g_suppress g).
  - destruct rubbed; [right; apply suppressed_dropped|]. destruct (negb _); [|left; apply kept_refl].
    right. split; [reflexivity|split; reflexivity].
  - left. split; [reflexivity|split; reflexivity].
Qed.

(** Setting: nothing, or a generation that was not there before. *)
Lemma set_effect e line w items g g' : set lower e line w items g = Some g' ->
  kept g g' \/
  exists n, 1 <= n <= 3 /\ g_gen g' = Nat.iter n next_gen (g_gen g) /\ u_gen (g_sugs g') = g_gen g'.
Proof.
  unfold set. cbv zeta. intro H.
  destruct (_ && _ && _)%bool; [injection H as <-; left; apply kept_refl|]. right.
  destruct (filter _ items) as [|f fs].
  - injection H as <-. exists 2. split; [lia|]. split; reflexivity.
  - destruct (negb (e_enable e)).
    + injection H as <-. exists 2. split; [lia|]. split; reflexivity.
    + destruct (e_list_enabled e).
      * injection H as <-. exists 1. split; [lia|]. split; reflexivity.
      * destruct (compare _ _ _ _ _ _ _ _) as [[p q]|]; [|discriminate]. destruct (more _ _ _) as [[|]|]; [| |discriminate].
        { injection H as <-. exists 3. split; [lia|]. split; reflexivity. }
        { injection H as <-. exists 1. split; [lia|]. split; reflexivity. }
Qed.

Lemma next_gen_small g : (g < 4294967295)%N -> next_gen g = (g + 1)%N.
Proof.
  intro H. unfold next_gen. rewrite N.mod_small by lia. cbv zeta. replace (g + 1 =? 0)%N with false by lia. reflexivity.
Qed.

(** The history entries an operation removes from the list's copy. *)
Definition removed_by (o : op) : list Z := match o with ORemove i => [i] | _ => [] end.

(** The removals on the list's copy, applied to a vector. *)
Definition removals (rs : list Z) (l : list item) : list item := fold_left (fun l i => drop_history i l) rs l.

Lemma removals_nil rs : removals rs [] = [].
Proof. induction rs as [|i rs IH]; [reflexivity|exact IH]. Qed.

Definition inv (n : N) (removed : list Z) (s : mgr * sugs) : Prop :=
  let '(g, out) := s in
  (g_gen g <= 3 * n /\ u_gen (g_sugs g) <= g_gen g /\ u_gen out <= g_gen g)%N /\
  (u_gen (g_sugs g) = 0%N -> u_items (g_sugs g) = []) /\ (u_gen out = 0%N -> u_items out = []) /\
  (u_gen out = u_gen (g_sugs g) -> exists pre rs, removed = pre ++ rs /\
     u_items out = removals rs (u_items (g_sugs g))).

Lemma step_inv n removed s s' o : (n < 1000000000)%N -> inv n removed s -> step s o = Some s' ->
  inv (n + 1) (removed ++ removed_by o) s'.
Proof.
  destruct s as [g out]. intros Hn ((B1 & B2 & B3) & Z1 & Z2 & Heq) H.
  assert (Hkept : forall g', kept g g' -> inv (n + 1) removed (g', out)).
  { intros g' (K1 & K2 & K3). cbn [inv]. rewrite K1, K2, K3. split; [lia|]. auto. }
  assert (Hdrop : forall g', dropped g g' -> inv (n + 1) removed (g', out)).
  { intros g' (K1 & K2 & K3). cbn [inv]. rewrite K1, K2, K3, next_gen_small by lia. split; [lia|]. split; [auto|].
    split; [auto|]. intro E. exists removed, []. split; [rewrite app_nil_r; auto|]. cbn. rewrite (Z2 E). reflexivity. }
  destruct o as [e line w items| |b|e fuel a b|busy selected rubbed w b|e|idx]; cbn [step] in H; cbn [removed_by];
    rewrite ?app_nil_r.
  - destruct (set lower e line w items g) as [g'|] eqn:E; [|discriminate]. injection H as <-.
    apply set_effect in E as [E|(j & Hj & E1 & E2)]; [apply Hkept; auto|].
    assert (E3 : (g_gen g' = g_gen g + N.of_nat j)%N).
    { assert (Hiter : forall k, k <= 3 -> (Nat.iter k next_gen (g_gen g) = g_gen g + N.of_nat k)%N).
      { induction k as [|k IHk]; intro Hk; [cbn; lia|]. change (Nat.iter (S k) next_gen (g_gen g)) with (next_gen (Nat.iter k next_gen (g_gen g))).
        rewrite IHk, next_gen_small by lia. lia. }
      rewrite E1, Hiter by lia. reflexivity. }
    cbn [inv]. rewrite E2, E3. split; [lia|]. split; [lia|]. split; [auto|]. intro E4. lia.
  - injection H as <-. apply Hdrop. apply clear_dropped.
  - injection H as <-. apply Hdrop. apply suppressed_dropped.
  - destruct (insert lower forward_word e fuel a g b) as [[[x g'] b']|] eqn:E; [|discriminate]. injection H as <-.
    apply insert_effect in E as [E|E]; auto.
  - injection H as <-. destruct (ask_effect busy selected rubbed w g b) as [E|E]; auto.
  - injection H as <-. unfold get. destruct (negb (e_enable e)); cbn [snd].
    + cbn [inv u_clear u_gen u_items]. split; [lia|]. split; [auto|]. split; [auto|]. intro E. exists removed, [].
      split; [rewrite app_nil_r; auto|]. cbn. rewrite Z1 by auto. reflexivity.
    + destruct (N.eqb_spec (u_gen (g_sugs g)) (u_gen out)) as [E|E]; [apply Hkept; apply kept_refl|].
      destruct (copy_items (g_sugs g)) as (C1 & C2 & _). cbn [inv]. rewrite C1, C2. split; [lia|]. split; [auto|]. split; [auto|].
      intros _. exists removed, []. split; [rewrite app_nil_r; auto|auto].
  - injection H as <-. cbn [inv u_remove_history u_gen u_items]. split; [lia|]. split; [auto|].
    split; [intro E; rewrite (Z2 E); reflexivity|].
    intro E. destruct (Heq E) as (pre & rs & Hrs & E2). exists pre, (rs ++ [idx]). split; [rewrite Hrs, <- app_assoc; auto|].
    unfold removals in *. rewrite fold_left_app, <- E2. reflexivity.
Qed.

Lemma run_inv ops : forall n removed s s', (n + N.of_nat (length ops) < 1000000000)%N -> inv n removed s -> run s ops = Some s' ->
  inv (n + N.of_nat (length ops)) (removed ++ flat_map removed_by ops) s'.
Proof.
  induction ops as [|o ops IH]; intros n removed s s' Hn Hi H; cbn [run] in H.
  - injection H as <-. cbn [length flat_map]. rewrite N.add_0_r, app_nil_r. exact Hi.
  - destruct (step s o) as [s1|] eqn:E; [|discriminate]. cbn [length] in *.
    replace (N.of_nat (S (length ops))) with (N.of_nat (length ops) + 1)%N in * by lia.
    assert (Hi1 := step_inv n removed s s1 o ltac:(lia) Hi E).
    assert (Hr := IH (n + 1)%N _ _ _ ltac:(lia) Hi1 H). cbn [flat_map].
    replace (n + (N.of_nat (length ops) + 1))%N with (n + 1 + N.of_nat (length ops))%N by lia.
    rewrite app_assoc. exact Hr.
Qed.

(** After any history of fewer than 10^9 operations, fetching the suggestions yields the current ones, less the history
    entries that the list has removed since it last got them. *)
Theorem get_current : forall ops g out e out', (N.of_nat (length ops) < 1000000000)%N ->
  run (fresh, u_clear 0) ops = Some (g, out) -> e_enable e = true -> get e g out = (true, out') ->
  (exists pre rs, flat_map removed_by ops = pre ++ rs /\ u_items out' = removals rs (u_items (g_sugs g))) /\
  (flat_map removed_by ops = [] -> u_items out' = u_items (g_sugs g)).
Proof.
  intros ops g out e out' Hn Hr He Hg.
  assert (Hi : inv 0 [] (fresh, u_clear 0)).
  { cbn. split; [lia|]. split; [auto|]. split; [auto|]. intros _. exists [], []. auto. }
  pose proof (run_inv ops 0 [] _ _ ltac:(lia) Hi Hr) as (_ & _ & _ & Heq).
  assert (H : exists pre rs, flat_map removed_by ops = pre ++ rs /\ u_items out' = removals rs (u_items (g_sugs g))).
  { unfold get in Hg. rewrite He in Hg. cbn [negb] in Hg. injection Hg as <-.
    destruct (N.eqb_spec (u_gen (g_sugs g)) (u_gen out)) as [E|E]; [exact (Heq (eq_sym E))|].
    destruct (copy_items (g_sugs g)) as (C1 & _). rewrite C1. exists (flat_map removed_by ops), [].
    split; [rewrite app_nil_r; auto|auto]. }
  split; [exact H|]. intro E. destruct H as (pre & rs & E2 & E3). rewrite E in E2. symmetry in E2.
  apply app_eq_nil in E2 as [_ ->]. exact E3.
Qed.

(** A result that arrives is offered (can be shown and accepted) exactly if what has been typed is a beginning of
    it; otherwise there is no suggestion then. *)
Theorem set_offers : forall e w g a t s est ess src deco h, e_enable e = true -> e_list_enabled e = false ->
  Forall scalar (a ++ t) -> Forall scalar s -> elements (kk lower e) t est -> elements (kk lower e) s ess ->
  u_line (g_sugs g) <> enc (a ++ t) ->
  exists g', set lower e (enc (a ++ t)) w [mkItem (enc s) (length (enc a)) src deco h] g = Some g' /\
    ((exists es1 es2, ess = es1 ++ es2 /\ map fst es1 = map fst est /\
        u_items (g_sugs g') = [mkItem (enc s) (length (enc a)) src deco h] /\ g_endword g' = Some w /\
        (flat_map snd es2 <> [] -> offers g' a s)) \/
     ((forall es1 es2, ess = es1 ++ es2 -> map fst es1 <> map fst est) /\ u_items (g_sugs g') = [])).
Proof.
  intros e w g a t s est ess src deco h He Hle Hl Hs Het Hes Hne.
  assert (Ht : Forall scalar t) by (apply Forall_app in Hl; tauto).
  pose proof (ta_nul [] s Hs) as Hts. cbn [app enc flat_map length] in Hts. change (flat_map utf8 s) with (enc s) in Hts.
  destruct (compare_prefix lower e _ _ _ _ _ t s est ess Ht Hs (ta_nul a t Ht) Hts Het Hes) as (p' & q' & E & Hcase).
  unfold set. cbv zeta. destruct (list_eq_dec N.eq_dec (u_line (g_sugs g)) (enc (a ++ t))) as [E2|_]; [contradiction|].
  rewrite andb_false_r. cbn [filter i_off].
  replace (length (enc (a ++ t)) <? length (enc a)) with false by (rewrite enc_app, app_length; lia). cbn [negb].
  rewrite He, Hle. cbn [negb i_text i_off]. rewrite E.
  destruct Hcase as [(es1 & es2 & E1 & E2 & Hm & Hp & Hq & _)|[Hno Hm]]; rewrite Hm.
  - eexists. split; [reflexivity|]. left. exists es1, es2. split; [auto|]. split; [auto|]. split; [reflexivity|].
    split; [reflexivity|]. intro Hne2. exists src, deco, h, q'. split; [reflexivity|]. split; [reflexivity|].
    rewrite Hq, <- (elements_concat _ _ _ Hes), E1, flat_map_app, enc_app, app_length.
    assert (enc (flat_map snd es2) <> []).
    { intro X. apply Hne2. apply enc_nil; [|auto]. rewrite <- (elements_concat _ _ _ Hes), E1, flat_map_app in Hs.
      apply Forall_app in Hs. tauto. }
    destruct (enc (flat_map snd es2)); [contradiction|cbn [length]; lia].
  - eexists. split; [reflexivity|]. right. split; [auto|]. reflexivity.
Qed.

(** When a result for the line is there, no other is asked for as long as the line stays the same. *)
Lemma set_line_is e line w items g g' : set lower e line w items g = Some g' -> u_line (g_sugs g') = line.
Proof.
  unfold set. cbv zeta. intro H.
  destruct (same_items (u_items (g_sugs g)) items &&
     match g_endword g with Some w0 => w0 =? w | None => false end &&
     (if list_eq_dec N.eq_dec (u_line (g_sugs g)) line then true else false))%bool eqn:E.
  - injection H as <-. destruct (list_eq_dec N.eq_dec (u_line (g_sugs g)) line) as [E2|E2]; [exact E2|].
    rewrite andb_false_r in E. discriminate.
  - clear E. repeat match type of H with
    | Some _ = Some _ => injection H as <-; reflexivity
    | None = Some _ => discriminate
    | context [match ?t with _ => _ end] => destruct t
    end.
Qed.

(** A number of times the editor asks, each time with the line, whether the last command deleted backwards, and
    what the answer is. *)
Inductive asks : mgr -> list (list N * bool * bool) -> mgr -> Prop :=
| A_none g : asks g [] g
| A_more g line rub w x g1 l g2 :
    can_suggest false false rub w g (mkBuf line (length line)) = (x, g1) ->
    asks g1 l g2 -> asks g ((line, rub, x) :: l) g2.

Theorem asked_once : forall e line w items g g' l g2, set lower e line w items g = Some g' ->
  asks g' l g2 -> Forall (fun a => fst (fst a) = line) l -> Forall (fun a => snd a = false) l.
Proof.
  intros e line w items g g' l g2 Hs Ha. apply set_line_is in Hs.
  revert Hs. induction Ha as [g0|g0 line0 rub w' x g1 l g2 Hc Ha IH]; intros Hs Hl; [constructor|].
  apply Forall_cons_iff in Hl as [E Hl]. cbn [fst] in E. subst line0.
  assert (x = false /\ u_line (g_sugs g1) = line) as [-> Hl1].
  { unfold can_suggest in Hc. cbn [b_text b_cur] in Hc. rewrite Nat.eqb_refl in Hc. cbn [negb] in Hc.
    destruct (g_paused g0); [injection Hc as <- <-; auto|].
    cbv zeta in Hc. destruct (list_eq_dec N.eq_dec (u_line (g_sugs g0)) line) as [E|E]; [|contradiction].
    cbn [negb] in Hc. destruct (g_suppress g0).
    - destruct rub; injection Hc as <- <-; auto.
    - injection Hc as <- <-; auto. }
  constructor; auto.
Qed.

(** A change of the line is answered with a request, unless suggestions are paused. *)
Theorem asked_when_changed : forall e line w items g g' line' rub w', set lower e line w items g = Some g' ->
  line' <> line -> g_paused g' = false -> g_suppress g' = false ->
  fst (can_suggest false false rub w' g' (mkBuf line' (length line'))) = true.
Proof.
  intros e line w items g g' line' rub w' Hs Hne Hp Hu. apply set_line_is in Hs. unfold can_suggest. cbn [b_text b_cur].
  rewrite Hp, Hu, Nat.eqb_refl. cbn [negb fst]. destruct (list_eq_dec N.eq_dec _ _) as [E|E]; [|reflexivity].
  congruence.
Qed.

(** After the suggestion has been accepted, nothing is asked for while the line stays as it is or is only
    deleted from. *)
Fixpoint only_deleted (line : list N) (l : list (list N * bool * bool)) : Prop :=
  match l with
  | [] => True
  | (line', rub, _) :: r => (rub = true \/ line' = line) /\ only_deleted line' r
  end.
Lemma still_suppressed g0 l g2 : asks g0 l g2 -> forall line, u_line (g_sugs g0) = line -> g_suppress g0 = true -> g_paused g0 = false ->
  only_deleted line l ->
  Forall (fun a => snd a = false) l /\ u_line (g_sugs g2) = last (map (fun a => fst (fst a)) l) line /\ g_suppress g2 = true /\ g_paused g2 = false.
Proof.
  induction 1 as [g0|g0 line0 rub w' x g1 l g2 Hc Ha IH]; intros line Hs Hu Hp2 Hl; [repeat split; auto|].
  cbn [only_deleted] in Hl. destruct Hl as [Hl1 Hl2].
  assert (x = false /\ u_line (g_sugs g1) = line0 /\ g_suppress g1 = true /\ g_paused g1 = false) as (-> & H1 & H2 & H3).
  { unfold can_suggest in Hc. cbn [b_text b_cur] in Hc. rewrite Nat.eqb_refl, Hp2, Hu in Hc. cbn [negb] in Hc. cbv zeta in Hc.
    destruct rub; [injection Hc as <- <-; auto|]. destruct Hl1 as [Hl1|Hl1]; [discriminate|]. subst line0.
    destruct (list_eq_dec N.eq_dec (u_line (g_sugs g0)) line) as [E|E]; [|contradiction]. cbn [negb] in Hc.
    injection Hc as <- <-. auto. }
  destruct (IH line0 H1 H2 H3 Hl2) as (A & B & C & D). split; [constructor; [reflexivity|exact A]|].
  split; [|split; [exact C|exact D]]. rewrite B. cbn [map fst]. destruct l as [|a l]; [reflexivity|]. cbn [map]. 
  change (last (line0 :: fst (fst a) :: map (fun a => fst (fst a)) l) line) with (last (fst (fst a) :: map (fun a => fst (fst a)) l) line).
  generalize (fst (fst a)). generalize (map (fun a => fst (fst a)) l). clear. induction l as [|y l IH]; intros a; [reflexivity|]. cbn [last] in *. apply (IH y).
Qed.
Theorem suppressed_quiet : forall g b l g2, g_paused g = false ->
  asks (g_suppressed g b) l g2 -> only_deleted (b_text b) l -> Forall (fun a => snd a = false) l.
Proof. intros g b l g2 Hp Ha Hl. eapply still_suppressed; eauto; reflexivity. Qed.

(** Then, as soon as something else is typed, suggestions are asked for again, and the suppression is over. *)
Theorem typing_resumes : forall g b l g2 line w, g_paused g = false ->
  asks (g_suppressed g b) l g2 -> only_deleted (b_text b) l -> line <> last (map (fun a => fst (fst a)) l) (b_text b) ->
  exists g3, can_suggest false false false w g2 (mkBuf line (length line)) = (true, g3) /\ g_suppress g3 = false.
Proof.
  intros g b l g2 line w Hp Ha Hl Hne. destruct (still_suppressed _ _ _ Ha (b_text b) eq_refl eq_refl Hp Hl) as (_ & A & B & C).
  unfold can_suggest. cbn [b_text b_cur]. rewrite Nat.eqb_refl, B, C. cbn [negb]. cbv zeta.
  destruct (list_eq_dec N.eq_dec (u_line (g_sugs g2)) line) as [E|E]; [congruence|]. eexists. split; reflexivity.
Qed.
End Sync.

(** Deleting the history entry [idx]: the suggestions that came from it disappear, those from later entries keep pointing to
    their entry, which has moved down by one; the others and their order stay. *)
Theorem history_removed : forall idx l, (0 <= idx < 2147483648)%Z ->
  Forall (fun i => 0 <= i_hist i < 2147483648)%Z l ->
  drop_history idx l =
    map (fun i => if (idx <? i_hist i)%Z then mkItem (i_text i) (i_off i) (i_src i) (i_deco i) (i_hist i - 1) else i)
        (filter (fun i => negb (i_hist i =? idx)%Z) l).
Proof.
  intros idx l Hi Hl. induction Hl as [|i l Hh Hl IH]; [reflexivity|]. cbn [drop_history filter].
  assert (E : u32 (i_hist i) = i_hist i) by (unfold u32; apply Z.mod_small; lia). rewrite E.
  destruct (i_hist i =? idx)%Z eqn:E1; cbn [negb]; [exact IH|]. cbn [map]. rewrite IH. f_equal.
  destruct (idx <? i_hist i)%Z eqn:E2; [|reflexivity]. unfold set_hist. f_equal.
  unfold s32. cbv zeta. rewrite Z.mod_small by lia. replace (i_hist i - 1 <? 2147483648)%Z with true by lia. reflexivity.
Qed.

(** A suggestion that is not from the history (index -1) does not stay as it is: the comparison is unsigned, so its
    index is decremented, too. *)
Theorem others_untouched_refuted :
  drop_history 5 [mkItem (bs "dir") 0 (bs "completion") [] (-1)] = [mkItem (bs "dir") 0 (bs "completion") [] (-2)].
Proof. vm_compute. reflexivity. Qed.

(** ** Examples *)
Example ex_get :
  let fw := fun (t : list N) (c : nat) => length t in
  let i1 := sug (bs "git push") 0 in let i2 := mkItem (bs "git pull") 0 (bs "history") [] 7 in
  let e3 := mkEnv true true true 1 true true true in
  match run ascii_lower fw (fresh, u_clear 0)
     [OSet e3 (bs "git p") 4 [i1; i2]; OGet e3; OAsk false false false 4 (typed (bs "git p")); OClear; OGet e3;
      OSet e3 (bs "git") 0 [i2; i1]] with
  | Some (g, out) => u_items out = [] /\ u_items (g_sugs g) = [i2; i1] /\ u_items (snd (get e3 g out)) = [i2; i1]
  | None => False
  end.
Proof. vm_compute. auto. Qed.
Example ex_removed : drop_history 5 [sug (bs "a") 0; mkItem (bs "b") 0 [] [] 5; mkItem (bs "c") 0 [] [] 6] =
  [sug (bs "a") 0; mkItem (bs "c") 0 [] [] 5].
Proof. vm_compute. reflexivity. Qed.
Example ex_asks : exists g2, asks (after e1 (bs "git p") 4 [sug (bs "git push") 0])
  [(bs "git p", true, false); (bs "git p", false, false); (bs "git pu", false, true)] g2.
Proof.
  eexists. eapply (A_more _ _ _ 4). { vm_compute. reflexivity. }
  eapply (A_more _ _ _ 4). { vm_compute. reflexivity. } eapply (A_more _ _ _ 4). { vm_compute. reflexivity. } apply A_none.
Qed.
Example ex_quiet : exists g2, asks (g_suppressed (after e1 (bs "git p") 4 [sug (bs "git push") 0]) (typed (bs "git push")))
  [(bs "git push", false, false); (bs "git pus", true, false); (bs "git pus", false, false)] g2 /\
  only_deleted (bs "git push") [(bs "git push", false, false); (bs "git pus", true, false); (bs "git pus", false, false)].
Proof.
  eexists. split.
  - eapply (A_more _ _ _ 4). { vm_compute. reflexivity. }
    eapply (A_more _ _ _ 4). { vm_compute. reflexivity. } eapply (A_more _ _ _ 4). { vm_compute. reflexivity. } apply A_none.
  - cbn. auto 10.
Qed.
Example ex_resumes : exists g2 g3, asks (g_suppressed (after e1 (bs "git p") 4 [sug (bs "git push") 0]) (typed (bs "git push")))
  [(bs "git pus", true, false)] g2 /\ can_suggest false false false 4 g2 (typed (bs "git pusx")) = (true, g3).
Proof.
  eexists. eexists. split.
  - eapply (A_more _ _ _ 4). { vm_compute. reflexivity. } apply A_none.
  - vm_compute. reflexivity.
Qed.

Print Assumptions get_current.
Print Assumptions set_offers.
Print Assumptions asked_once.
Print Assumptions asked_when_changed.
Print Assumptions suppressed_quiet.
Print Assumptions typing_resumes.
Print Assumptions history_removed.
Print Assumptions others_untouched_refuted.
