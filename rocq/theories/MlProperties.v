(** C63: building the match list.  C64: what is shown.  C65: the order. *)
From Verif Require Import Base CmpModel PathModel MlModel MlSpec MlProofs MlPipeProofs MlRunProofs MlBuildProofs.
Local Open Scope N_scope.

Definition nonempty (l : list offer) : list offer := filter (fun o => match text_of (fst o) with [] => false | _ => true end) l.
Definition no_nul (l : list offer) : Prop := Forall (fun o => ~ In 0 (text_of (fst o))) l.
Definition bs (s : string) : text := map N_of_ascii (list_ascii_of_string s).
Definition any_alpha (c : N) : bool := (65 <=? c) && (c <=? 90) || (97 <=? c) && (c <=? 122).

(** ** C63 *)
Lemma fresh_ok md sp f dep ns : built_ok (fresh md sp f dep ns).
Proof. split; cbn; auto; try discriminate; try tauto; congruence. Qed.
Lemma nonempty_forall l : Forall (fun o : offer => text_of (fst o) <> []) (nonempty l).
Proof. apply Forall_forall. intros o I. apply filter_In in I as [_ I]. destruct (text_of (fst o)); [discriminate|discriminate]. Qed.
(** The list holds, in order, the first of each sort of the matches offered, put down as [stored] says. *)
Theorem built_list : forall walpha md sp f dep ns l, no_nul l ->
  exists xs, Forall2 (stored walpha md sp f) (nonempty l) xs /\ kept xs (items (build walpha (fresh md sp f dep ns) l)).
Proof.
  intros walpha md sp f dep ns l NZ. exists (map (final walpha (fresh md sp f dep ns)) (nonempty l)). split.
  - pose proof (nonempty_forall l) as NE. assert (NZ' : no_nul (nonempty l)) by (eapply sub_forall; [apply sub_filter|exact NZ]).
    induction (nonempty l) as [|o r IH]; cbn [map]; [constructor|]. constructor.
    + apply stored_ok; [exact (Forall_inv NE)|exact (Forall_inv NZ')].
    + apply IH; [exact (Forall_inv_tail NE)|exact (Forall_inv_tail NZ')].
  - rewrite build_empty. fold (nonempty l). pose proof (build_ok walpha (nonempty l) (fresh md sp f dep ns) (fresh md sp f dep ns) [] (fresh_ok _ _ _ _ _) eq_refl eq_refl eq_refl eq_refl eq_refl (nonempty_forall l)) as B.
    cbn [app] in B. apply B. apply K_none.
Qed.
(** [kept] means: no two of one sort, all of them offered and in that order, everything offered has its like. *)
Theorem kept_meaning : forall l k, kept l k -> all_different k /\ subsequence k l /\ Forall (fun x => Exists (fun y => clash y x) k) l.
Proof. intros l k K. split; [exact (kept_different l k K)|]. split; [exact (kept_sub l k K)|exact (kept_all l k K)]. Qed.
Example ex_built :
  items (build any_alpha (fresh 2 0 (None, false) false false)
    [((bs "src", T_DIR, 1), true); ((bs "a\b.c", T_FILE, 2), false); ([], T_WORD, 3, false); ((bs "src\", T_NONE, 4), false); ((bs "c:", T_DIR, 5), false);
     ((bs "src/", T_FILE, 6), false)])
  = [(bs "src/", T_DIR, 1); (bs "a/b.c", T_FILE, 2); (bs "c:", T_DIR, 5); (bs "src/", T_FILE, 6)].
Proof. vm_compute. reflexivity. Qed.

Lemma build_state walpha md sp f dep ns l :
  let s := build walpha (fresh md sp f dep ns) l in
  built_ok s /\ mode s = md /\ sep s = sp /\ fcd s = f /\ nosort s = ns /\ deprecated s = dep.
Proof.
  cbv zeta. rewrite build_empty. fold (nonempty l). pose proof (build_ok walpha (nonempty l) (fresh md sp f dep ns) (fresh md sp f dep ns) [] (fresh_ok _ _ _ _ _) eq_refl eq_refl eq_refl eq_refl eq_refl (nonempty_forall l) K_none) as B.
  tauto.
Qed.
Lemma asks_iff s : (if deprecated s then sget (fcd s) && match fst (fcd s) with Some _ => true | None => false end
                 else sget (fcd s) || match fst (fcd s) with Some _ => false | None => true end) = true <-> asks (fcd s) (deprecated s).
Proof.
  unfold asks, sget. destruct (deprecated s), (fcd s) as [[[]|] []]; cbn [fst snd andb orb]; split; intro H; try reflexivity; try discriminate; try congruence.
Qed.
Lemma becomes_conv attrs c e : becomes attrs c (item_of e) (item_of (conv attrs c e)).
Proof.
  unfold becomes, conv. pose proof (plain_iff (type_ e)) as PI. fold (convertible e) in PI. unfold text_of, type_of. cbn [item_of fst snd].
  destruct (convertible e) eqn:CV.
  - cbv zeta. cbn [item_of fst snd match_ type_ extra]. split; [reflexivity|]. split; [|intro X; exfalso; apply X; apply PI; reflexivity].
    intros _. split.
    + unfold answer, kind. destruct (attrs (match_ e)) as [[[] [] [] [] [] []]|]; vm_compute; auto.
    + unfold is_type, put_end. split; intro D.
      * rewrite D, N.eqb_refl. destruct (c =? 0); [symmetry; apply app_nil_r|reflexivity].
      * apply N.eqb_neq in D. rewrite D. reflexivity.
  - split; [reflexivity|]. split; [intro X; apply PI in X; discriminate|reflexivity].
Qed.
Definition attrs_sep (md sp c : N) : Prop := (md = 2 /\ c = 47) \/ (md = 4 /\ c = sp) \/ (md <> 2 /\ md <> 4 /\ c = 92).
Lemma build_sep_ok md sp s : mode s = md -> sep s = sp -> attrs_sep md sp (build_sep s).
Proof.
  intros <- <-. unfold build_sep, attrs_sep. destruct (mode s) as [|[[p|p|]|[p|[p|p|]|]|]]; auto; right; right; (split; [discriminate|]); (split; [discriminate|reflexivity]).
Qed.
Lemma ordinals_sorted : forall (l : list info) k, map ordinal l = map N.of_nat (seq k (length l)) -> StronglySorted before l /\ Forall (fun e => N.of_nat k <= ordinal e) l.
Proof.
  induction l as [|e l IH]; intros k E; [split; constructor|]. cbn [map length seq] in E. injection E as E1 E2. destruct (IH (S k) E2) as [A B]. split.
  - constructor; [exact A|]. eapply Forall_impl; [|exact B]. unfold before. cbn beta. intros x H. lia.
  - constructor; [lia|]. eapply Forall_impl; [|exact B]. cbn beta. intros x H. lia.
Qed.
Lemma sorted_conv attrs c l : StronglySorted before l -> StronglySorted before (map (conv attrs c) l).
Proof.
  induction 1 as [|x l S IH F]; cbn [map]; constructor; [exact IH|]. apply Forall_forall. intros y I. apply in_map_iff in I as (z & <- & I).
  unfold before. rewrite !conv_ordinal. exact (proj1 (Forall_forall _ _) F z I).
Qed.
Lemma refines_start s l : StronglySorted before l -> l = infos s -> N.of_nat (length (infos s)) < 65536 -> N.of_nat (length (infos s)) <= count s -> refines s (items s, items s).
Proof.
  intros S -> L C. assert (SH : shown s = infos s) by (unfold shown; apply firstn_all2; lia).
  exists (map strip (infos s)), (map strip (infos s)). cbn [fst snd]. unfold items. rewrite !map_map. split; [reflexivity|]. split; [reflexivity|]. split; [|split; [apply sub_refl|]].
  - clear - S. induction S as [|x l S IH F]; cbn [map]; constructor; [exact IH|]. apply Forall_forall. intros y I. apply in_map_iff in I as (z & <- & I). exact (proj1 (Forall_forall _ _) F z I).
  - rewrite SH. split; [apply Permutation_refl|]. split; [apply Permutation_refl|exact L].
Qed.
Lemma conv_nothing attrs c l : existsb (fun e => is_type (type_ e) T_NONE) l = false -> map (conv attrs c) l = l.
Proof.
  induction l as [|e l IH]; cbn [existsb map]; intro H; [reflexivity|]. apply orb_false_iff in H as [H1 H2]. rewrite (IH H2). f_equal. unfold conv, convertible. rewrite H1. reflexivity.
Qed.
Lemma sub_length {A} (a b : list A) : subsequence a b -> (length a <= length b)%nat.
Proof. induction 1; cbn [length]; lia. Qed.

(** done_building asks the file system about matches of no type; what becomes a duplicate of another match goes. *)
Theorem done_list : forall walpha attrs md sp f dep ns l,
  let s := build walpha (fresh md sp f dep ns) l in
  N.of_nat (length (items s)) < 65536 ->
  exists s', done_building attrs s = Some s' /\ nosort s' = ns /\ refines s' (items s', items s') /\
    (~ asks f dep -> items s' = items s) /\
    (asks f dep -> exists c xs, attrs_sep md sp c /\ Forall2 (becomes attrs c) (items s) xs /\
       all_different (items s') /\ subsequence (items s') xs /\ Forall (fun x => Exists (fun y => clash y x) (items s')) xs).
Proof.
  intros walpha attrs md sp f dep ns l s L. pose proof (build_state walpha md sp f dep ns l) as B. cbv zeta in B. fold s in B. destruct B as (OK & E1 & E2 & E3 & E4 & E5).
  pose proof (built_list walpha md sp f dep ns) as _.
  assert (D : all_different (items s)).
  { unfold s. rewrite build_empty. fold (nonempty l).
    pose proof (build_ok walpha (nonempty l) (fresh md sp f dep ns) (fresh md sp f dep ns) [] (fresh_ok _ _ _ _ _) eq_refl eq_refl eq_refl eq_refl eq_refl (nonempty_forall l) K_none) as B.
    destruct B as (_ & _ & _ & _ & _ & _ & K). exact (kept_different _ _ K). }
  clearbody s. assert (LI : N.of_nat (length (infos s)) < 65536) by (unfold items in L; rewrite map_length in L; exact L).
  assert (CT : count s = N.of_nat (length (infos s))) by (rewrite (b_count s OK); unfold short; apply N.mod_small; exact LI).
  destruct (ordinals_sorted (infos s) 0 (b_ord s OK)) as [SO _].
  assert (ASK : asks f dep <-> asks (fcd s) (deprecated s)) by (rewrite E3, E5; reflexivity).
  destruct (retypes s) eqn:RT.
  - assert (AN : asks f dep) by (apply ASK; apply asks_iff; unfold retypes in RT; apply andb_true_iff in RT; tauto).
    assert (NE : infos s <> []).
    { unfold retypes in RT. apply andb_true_iff in RT as [RT _]. rewrite (b_none s OK) in RT. intro X. rewrite X in RT. discriminate. }
    destruct (dedup s) as [set|] eqn:DS; [|exfalso; exact (b_null s OK NE DS)].
    destruct (retype_ok attrs (build_sep s) (length (infos s)) (infos s) [] set eq_refl) as (l' & d' & R & A1 & A2 & _ & _ & A5).
    { intro y. rewrite app_nil_r. pose proof (b_set s OK y) as H. rewrite DS in H. exact H. }
    { rewrite app_nil_r. exact D. }
    rewrite !app_nil_r in *. unfold done_building. rewrite RT, CT, Nat2N.id, DS, R. eexists. split; [reflexivity|]. split; [exact E4|].
    unfold items. cbn [infos]. split; [|split; [intro X; contradiction|]].
    + match goal with |- refines ?z _ => apply (refines_start z l') end; cbn [infos count]; [eapply sub_sorted; [exact A2|apply sorted_conv; exact SO]|reflexivity| |]; apply sub_length in A2; rewrite map_length in A2; lia.
    + intros _. exists (build_sep s), (map item_of (map (conv attrs (build_sep s)) (infos s))). split; [apply build_sep_ok; assumption|]. split; [|split; [exact A1|split]].
      * clear. induction (infos s) as [|e r IH]; cbn [map]; constructor; [apply becomes_conv|exact IH].
      * clear - A2. induction A2; cbn [map]; [apply S_nil|apply S_skip; assumption|apply S_take; assumption].
      * apply Forall_forall. intros x I. apply in_map_iff in I as (z & <- & I). apply in_map_iff in I as (e & <- & I). destruct (A5 e I) as (y & IY & C).
        apply Exists_exists. exists (item_of y). split; [apply in_map; exact IY|exact C].
  - unfold done_building. rewrite RT. eexists. split; [reflexivity|]. split; [exact E4|]. unfold items. cbn [infos]. split; [|split; [reflexivity|]].
    + match goal with |- refines ?z _ => apply (refines_start z (infos s)) end; cbn [infos count]; [exact SO|reflexivity|exact LI|lia].
    + intro AN. apply ASK in AN. apply asks_iff in AN. unfold retypes in RT. rewrite AN, andb_true_r, (b_none s OK) in RT.
      exists (build_sep s), (map item_of (infos s)). split; [apply build_sep_ok; assumption|]. split; [|split; [exact D|split; [apply sub_refl|]]].
      * rewrite <- (conv_nothing attrs (build_sep s) (infos s) RT) at 2. clear. induction (infos s) as [|e r IH]; cbn [map]; constructor; [apply becomes_conv|exact IH].
      * apply Forall_forall. intros x I. apply Exists_exists. exists x. split; [exact I|]. split; auto.
Qed.
Definition disk (m : text) : option attr :=
  if same_text m (bs "src") then Some (mka true false false false false false)
  else if same_text m (bs "x") then Some (mka false true false false false false) else None.
Example ex_done :
  option_map items (done_building disk (build any_alpha (fresh 0 0 (None, false) false false)
    [((bs "src", T_NONE, 1), false); ((bs "x", T_NONE, 2), false); ((bs "y", T_FILE, 3), false); ((bs "y", T_NONE, 4), false)]))
  = Some [(bs "src\", T_DIR, 1); (bs "x", 70, 2); (bs "y", T_FILE, 3)].
Proof. vm_compute. reflexivity. Qed.

(** When a duplicate goes, the count stays as it was: the last match read is beyond the end. *)
Theorem duplicate_count_refuted :
  exists attrs l s', done_building attrs (build any_alpha (fresh 0 0 (None, false) false false) l) = Some s' /\
    count s' = 2 /\ length (infos s') = 1%nat /\ get_match s' 1 = None.
Proof.
  exists (fun _ => None), [((bs "y", T_FILE, 3), false); ((bs "y", T_NONE, 4), false)]. eexists. split; [vm_compute; reflexivity|]. vm_compute. auto.
Qed.
(** With automatic translation and no separator typed yet, a directory offered without a type gets no separator. *)
Theorem automatic_separator_refuted :
  exists attrs l s', done_building attrs (build any_alpha (fresh 4 0 (None, false) false false) l) = Some s' /\
    exists x, In x (items s') /\ base (type_of x) = T_DIR /\ ~ ends_sep (text_of x).
Proof.
  exists disk, [((bs "src", T_NONE, 1), false)]. eexists. split; [vm_compute; reflexivity|]. exists (bs "src", T_DIR, 1). split; [vm_compute; auto|]. split; [reflexivity|].
  apply ends_false. reflexivity.
Qed.
(** What is kept depends on the order in which a match from the history comes. *)
Theorem history_order_refuted :
  exists l l', Permutation l l' /\
    length (items (build any_alpha (fresh 0 0 (None, false) false false) l)) = 2%nat /\
    length (items (build any_alpha (fresh 0 0 (None, false) false false) l')) = 1%nat.
Proof.
  exists [((bs "y", T_FILE, 0), true); ((bs "y", T_ALIAS, 0), true); ((bs "y", 32770, 0), true)], [((bs "y", 32770, 0), true); ((bs "y", T_FILE, 0), true); ((bs "y", T_ALIAS, 0), true)].
  split; [|vm_compute; auto]. etransitivity; [apply perm_skip; apply perm_swap|]. apply perm_swap.
Qed.

(** ** C64 *)
(** Every run of select, restrict and sort does what its parts mean. *)
Theorem run_refines : forall walpha begins wild compare l s s' w,
  refines s w -> steps walpha begins wild compare l s s' ->
  exists w', does_all walpha begins wild l w w' /\ refines s' w'.
Proof. intros walpha begins wild compare l s s' w R H. eapply steps_ok; eassumption. Qed.
(** ... where [refines] means: these matches are there, these are shown. *)
Theorem refines_meaning : forall s w, refines s w -> Permutation (items s) (fst w) /\ Permutation (map item_of (shown s)) (snd w) /\ subsequence (snd w) (fst w).
Proof.
  intros s w (F & G & <- & <- & _ & SB & PF & PG & _). unfold items. split; [|split].
  - rewrite <- (Permutation_map item_of PF), map_map. apply Permutation_refl.
  - rewrite <- (Permutation_map item_of PG), map_map. apply Permutation_refl.
  - clear - SB. induction SB; cbn [map]; [apply S_nil|apply S_skip; assumption|apply S_take; assumption].
Qed.
(** ... and it leaves no choice. *)
Lemma chosen_unique P all V V' : chosen P all V -> chosen P all V' -> V = V'.
Proof.
  intro H. revert V'. induction H as [|x all V PX H IH|x all V PX H IH]; intros V' H'; inversion H'; subst; try reflexivity; try contradiction; [f_equal|]; apply IH; assumption.
Qed.
Lemma tries_unique P Q A all V V' : tries P Q A all V -> tries P Q A all V' -> V = V'.
Proof.
  intros [[C N]|(C & S & C2)] [[C' N']|(C' & S' & C2')].
  - eapply chosen_unique; eassumption.
  - rewrite (chosen_unique _ _ _ _ C C') in N. destruct N as [N|N]; [congruence|contradiction].
  - rewrite (chosen_unique _ _ _ _ C' C) in N'. destruct N' as [N'|N']; [congruence|contradiction].
  - eapply chosen_unique; eassumption.
Qed.
Theorem does_unique : forall walpha begins wild l w w1 w2, does_all walpha begins wild l w w1 -> does_all walpha begins wild l w w2 -> w1 = w2.
Proof.
  intros walpha begins wild l w w1 w2 H. revert w2. induction H as [w|a l w w' w'' D H IH]; intros w2 H2; inversion H2 as [|a2 l2 x y z D2 H2']; subst; [reflexivity|].
  apply IH. replace w' with y; [exact H2'|]. clear - D D2.
  inversion D; subst; inversion D2; subst; try reflexivity.
  - match goal with A : tries _ _ _ _ ?u, B : tries _ _ _ _ ?v |- _ => rewrite (tries_unique _ _ _ _ _ _ A B) end. reflexivity.
  - match goal with A : tries _ _ _ _ ?u, B : tries _ _ _ _ ?v |- _ => rewrite (tries_unique _ _ _ _ _ _ A B) end. reflexivity.
  - match goal with A : chosen _ _ ?u, B : chosen _ _ ?v |- _ => rewrite (chosen_unique _ _ _ _ A B) end. reflexivity.
Qed.
(** Once something was selected every match below the count can be read, and it is one shown. *)
Theorem reads_shown : forall walpha begins wild compare a l s s' w,
  refines s w -> (forall o, a <> Sort o) -> steps walpha begins wild compare (a :: l) s s' ->
  forall i, get_match s' i = Some (nth_error (shown s') (N.to_nat i)).
Proof.
  intros walpha begins wild compare a l s s' w R NS H. apply (get_counted walpha compare).
  inversion H as [|a' l' x s1 z ST H1]; subst.
  assert (C1 : counted s1) by (eapply step_counted; [exact ST|exact R|right; exact NS]).
  destruct (step_ok _ _ _ _ _ _ _ _ ST R) as (w1 & _ & R1). clear - H1 C1 R1. revert w1 R1 C1.
  induction H1 as [s|b l s s1 s2 ST H IH]; intros w R C; [exact C|].
  destruct (step_ok _ _ _ _ _ _ _ _ ST R) as (w1 & _ & R1). eapply IH; [exact R1|]. eapply step_counted; [exact ST|exact R|left; exact C].
Qed.
Definition starts_with (n m : text) : bool := same_text n (firstn (length n) m).
Definition star_only (p m : text) (_ _ : bool) : bool :=
  match p with 42 :: r => let k := removelast r in existsb (fun i => starts_with k (skipn i m)) (seq 0 (S (length m))) | _ => starts_with (removelast p) m end.
Definition cfg : config := mkc true true false false true false.
Definition sample : list offer :=
  [((bs "beta", T_FILE, 1), true); ((bs "alpha", T_FILE, 2), true); ((bs "gamma\", T_DIR, 3), true); ((bs "delta", N.lor T_FILE 256, 4), true)].
Definition sample_state : state := build any_alpha (fresh 0 0 (None, false) false false) sample.
Example ex_select :
  map text_of (map item_of (shown (do_select any_alpha starts_with star_only cfg (bs "al") sample_state))) = [bs "alpha"] /\
  map text_of (map item_of (shown (do_select any_alpha starts_with star_only cfg (bs "mm") sample_state))) = [bs "gamma\"] /\
  map text_of (map item_of (shown (do_select any_alpha starts_with star_only cfg [] sample_state))) = [bs "beta"; bs "alpha"; bs "gamma\"].
Proof. vm_compute. auto. Qed.
Example ex_refines : refines sample_state (items sample_state, items sample_state).
Proof.
  destruct (done_list any_alpha (fun _ => None) 0 0 (None, false) false false sample) as (s' & E & _ & R & _); [vm_compute; reflexivity|].
  vm_compute in E. injection E as <-. exact R.
Qed.

(** The count has 16 bits: of 65536 matches selected, none is shown. *)
Definition many (n : nat) : list offer := map (fun i => ((repeat 97 (S i), T_WORD, 0), true)) (seq 0 n).
Lemma kept_whole l k : kept l k -> all_different l -> k = l.
Proof.
  induction 1 as [|l k x K IH F|l k x K IH F]; intro D; [reflexivity| |]; apply different_mid in D as [D1 D2]; rewrite app_nil_r in D1, D2; rewrite (IH D1) in *; [reflexivity|].
  exfalso. apply Exists_exists in F as (y & I & C). exact (proj1 (Forall_forall _ _) D2 y I C).
Qed.
Lemma many_built n : items (build any_alpha (fresh 0 0 (None, false) false false) (many n)) = map fst (many n).
Proof.
  assert (NE : Forall (fun o : offer => text_of (fst o) <> []) (many n)).
  { apply Forall_forall. intros o I. apply in_map_iff in I as (i & <- & _). discriminate. }
  pose proof (build_ok any_alpha (many n) (fresh 0 0 (None, false) false false) (fresh 0 0 (None, false) false false) [] (fresh_ok _ _ _ _ _) eq_refl eq_refl eq_refl eq_refl eq_refl NE K_none) as B.
  destruct B as (_ & _ & _ & _ & _ & _ & K). cbn [app] in K.
  assert (E : map (final any_alpha (fresh 0 0 (None, false) false false)) (many n) = map fst (many n)) by (unfold many; rewrite !map_map; apply map_ext; intro i; unfold final, add_text, text_of, type_of; cbn [fst snd]; destruct (ends_with_sep (repeat 97 (S i))); reflexivity).
  rewrite E in K. apply kept_whole; [exact K|]. unfold many. rewrite map_map. cbn [fst]. generalize 0%nat. clear. induction n as [|n IH]; intro k; cbn [seq map all_different]; [exact I|].
  split; [|apply IH]. apply Forall_forall. intros y I [T _]. apply in_map_iff in I as (j & <- & I). apply in_seq in I. unfold text_of in T. cbn [fst] in T.
  apply (f_equal (@length N)) in T. rewrite !repeat_length in T. lia.
Qed.
Theorem many_matches_refuted :
  exists l, N.of_nat (length l) = 65536 /\
    let s := build any_alpha (fresh 0 0 (None, false) false false) l in
    length (infos s) = length l /\ shown s = [] /\ shown (do_select any_alpha (fun _ _ => true) (fun _ _ _ _ => true) cfg [] s) = [].
Proof.
  assert (X : exists n, N.of_nat n = 65536) by (exists (N.to_nat 65536); apply N2Nat.id). destruct X as [n EN]. exists (many n).
  assert (LM : length (many n) = n) by (unfold many; rewrite map_length; apply seq_length). split; [rewrite LM; exact EN|]. cbv zeta.
  pose proof (many_built n) as M. pose proof (build_state any_alpha 0 0 (None, false) false false (many n)) as B. cbv zeta in B. destruct B as (OK & _).
  set (s := build any_alpha (fresh 0 0 (None, false) false false) (many n)) in *. clearbody s.
  assert (L : length (infos s) = n).
  { pose proof (f_equal (@length item) M) as ML. unfold items, many in ML. rewrite !map_length, seq_length in ML. exact ML. }
  split; [rewrite L, LM; reflexivity|]. split.
  - unfold shown. rewrite (b_count s OK), L, EN. reflexivity.
  - unfold do_select.
    assert (SEL : filter select (infos (with_infos s (select_matches any_alpha (fun _ _ => true) (fun _ _ _ _ => true) cfg [] (infos s)))) =
                  select_matches any_alpha (fun _ _ => true) (fun _ _ _ _ => true) cfg [] (infos s)).
    { cbn [with_infos infos]. unfold select_matches, selected. cbv zeta. cbn [cfg dot_prefix wild_setting orb can_try]. rewrite andb_false_r.
      assert (T : Forall (fun e => prefix_pick any_alpha (fun _ _ => true) cfg [] e = true) (infos s)).
      { apply Forall_forall. intros e I. unfold prefix_pick, include_hidden. cbn [cfg match_hidden orb andb].
        assert (IT : In (item_of e) (map fst (many n))) by (rewrite <- M; apply in_map; exact I). apply in_map_iff in IT as (o & EO & IO). apply in_map_iff in IO as (i & <- & _).
        cbn [fst] in EO. unfold item_of in EO. injection EO as E1 E2 E3. rewrite <- E2. reflexivity. }
      clear - T. induction T as [|e l H T IH]; [reflexivity|]. cbn [mark map filter select]. rewrite H. f_equal. exact IH. }
    assert (SL : length (select_matches any_alpha (fun _ _ => true) (fun _ _ _ _ => true) cfg [] (infos s)) = length (infos s)) by (unfold select_matches; apply selected_length).
    destruct (coalesce_ok (with_infos s (select_matches any_alpha (fun _ _ => true) (fun _ _ _ _ => true) cfg [] (infos s))) (length (infos s)) false) as (rest & _ & _ & C & _); [rewrite SEL, SL; apply le_n|].
    unfold shown. rewrite C, SEL, SL, L, EN. reflexivity.
Qed.

(** ** C65 *)
(** Matches shown after sorting: none comes before one it may not precede. *)
Theorem sort_order : forall walpha compare order s s' a x b y c,
  (forall ic, comparison (compare ic)) -> nosort s = false -> sorts walpha compare order s s' ->
  map item_of (shown s') = a ++ x :: b ++ y :: c -> may_precede walpha compare order x y.
Proof.
  intros walpha compare order s s' a x b y c CP NS ST E. apply sort_shown in ST as (_ & _ & O & _). rewrite NS in O.
  revert E. unfold in_order in O. generalize dependent (shown s'). intros l O. revert a. induction O as [|e l S IH F]; intros a E; [destruct a; discriminate|].
  destruct a as [|z a]; cbn [map app] in E; injection E as E1 E2; [|exact (IH a E2)]. subst x.
  assert (I : In y (map item_of l)) by (rewrite E2; apply in_app_iff; right; left; reflexivity). apply in_map_iff in I as (f & <- & I).
  apply precede_ok; [exact CP|]. exact (proj1 (Forall_forall _ _) F f I).
Qed.
(** The order is fit for sorting, so a sorted arrangement exists. *)
Theorem order_strict_weak : forall walpha compare order ns, (forall ic, comparison (compare ic)) ->
  (forall a b, less walpha compare order ns a b = true -> less walpha compare order ns b a = false) /\
  (forall a b c, less walpha compare order ns b a = false -> less walpha compare order ns c b = false -> less walpha compare order ns c a = false).
Proof.
  intros walpha compare order ns CP. destruct ns.
  - unfold less. split; [intros a b H; apply N.ltb_lt in H; apply N.ltb_ge; lia|]. intros a b c H1 H2. apply N.ltb_ge in H1, H2. apply N.ltb_ge. lia.
  - pose proof (keys_pre walpha compare order CP) as K. split.
    + intros a b. rewrite !less_keys. apply keys_asym. exact K.
    + intros a b c. rewrite !less_keys. apply keys_neg. exact K.
Qed.
Theorem sort_possible : forall walpha compare order s, (forall ic, comparison (compare ic)) -> exists s', sorts walpha compare order s s'.
Proof.
  intros walpha compare order s CP. destruct (order_strict_weak walpha compare order (nosort s) CP) as [A B].
  destruct (sorted_exists info (less walpha compare order (nosort s)) A B (firstn (N.to_nat (count s)) (infos s))) as (l & P & S).
  eexists. exists l. split; [exact P|]. split; [exact S|reflexivity].
Qed.
(** Where a generator turned sorting off, the matches come in the order they were offered. *)
Theorem nosort_keeps_order : forall walpha compare order s w s', refines s w -> nosort s = true -> sorts walpha compare order s s' -> map item_of (shown s') = snd w.
Proof. intros. eapply nosort_order; eassumption. Qed.

(** A comparison to try it with: by length. *)
Definition by_length (ic : bool) (a b : text) : Z := (Z.of_nat (length a) - Z.of_nat (length b))%Z.
Example ex_comparison : forall ic, comparison (by_length ic).
Proof. intro ic. unfold by_length. split; intros; lia. Qed.
Example ex_sorts : sorts any_alpha by_length 0 sample_state
  (with_infos sample_state [mki (bs "gamma\") T_DIR 2 3 false; mki (bs "beta") T_FILE 0 1 false; mki (bs "alpha") T_FILE 1 2 false; mki (bs "delta") (N.lor T_FILE 256) 3 4 false]).
Proof.
  exists [mki (bs "gamma\") T_DIR 2 3 false; mki (bs "beta") T_FILE 0 1 false; mki (bs "alpha") T_FILE 1 2 false; mki (bs "delta") (N.lor T_FILE 256) 3 4 false].
  split; [|split; [|reflexivity]].
  - change (firstn (N.to_nat (count sample_state)) (infos sample_state)) with
      [mki (bs "beta") T_FILE 0 1 false; mki (bs "alpha") T_FILE 1 2 false; mki (bs "gamma\") T_DIR 2 3 false; mki (bs "delta") (N.lor T_FILE 256) 3 4 false].
    etransitivity; [apply perm_skip; apply perm_swap|]. apply perm_swap.
  - repeat (constructor; [|repeat (constructor; [vm_compute; reflexivity|]); constructor]). constructor.
Qed.
(** The comment says ties are sorted dir, alias, command, word, arg, file; it is the other way round. *)
Definition documented_rank (t : N) : nat := nth (N.to_nat (base t)) [6; 6; 3; 4; 2; 1; 5; 0]%nat 0%nat.
Theorem type_order_refuted :
  exists a b, match_ a = match_ b /\ (documented_rank (type_ a) < documented_rank (type_ b))%nat /\
    less any_alpha by_length 1 false a b = false /\ less any_alpha by_length 1 false b a = true.
Proof. exists (mki (bs "x") T_ALIAS 0 0 false), (mki (bs "x") T_CMD 1 0 false). vm_compute. auto. Qed.

Print Assumptions built_list.
Print Assumptions kept_meaning.
Print Assumptions done_list.
Print Assumptions duplicate_count_refuted.
Print Assumptions automatic_separator_refuted.
Print Assumptions history_order_refuted.
Print Assumptions run_refines.
Print Assumptions refines_meaning.
Print Assumptions does_unique.
Print Assumptions reads_shown.
Print Assumptions many_matches_refuted.
Print Assumptions sort_order.
Print Assumptions order_strict_weak.
Print Assumptions sort_possible.
Print Assumptions nosort_keeps_order.
Print Assumptions type_order_refuted.
