(** C32 and C34: settings and the settings file. *)
From Verif Require Import Base ColorModel ColorSpec SettingsModel SettingsSpec SettingsProofs SettingsFile SettingsLoad.
Arguments dec : simpl never.

Lemma undeclared_none reg n : undeclared reg n <-> findable reg n = None.
Proof.
  unfold undeclared, taken_for, findable. split.
  - intro F. rewrite Forall_forall in F.
    replace (existsb (named n) reg) with false by (symmetry; apply existsb_none; intros s I; apply iequal_false; intro A; apply (F s I); auto).
    destruct (Nat.ltb_spec 32 (length n)) as [L|L]; cbn [andb]; auto.
    replace (existsb (named (firstn 32 n)) reg) with false; auto.
    symmetry; apply existsb_none; intros s I; apply iequal_false; intro A; apply (F s I); auto.
  - intro E. apply Forall_forall. intros s I.
    destruct (existsb (named n) reg) eqn:E1; [discriminate|]. rewrite existsb_none in E1.
    intros [A|[L A]].
    + apply iequal_alike in A. specialize (E1 s I). unfold named in E1. congruence.
    + apply Nat.ltb_lt in L. rewrite L in E. cbn [andb] in E. destruct (existsb (named (firstn 32 n)) reg) eqn:E2; [discriminate|].
      rewrite existsb_none in E2. apply iequal_alike in A. specialize (E2 s I). unfold named in E2. congruence.
Qed.
Lemma undeclared_one s n : ~ taken_for n s -> findable [s] n = None.
Proof. intro H. apply undeclared_none. apply Forall_cons; auto. Qed.
Lemma not_auto n t : ~ alike n (lit "clink.autoupdate") -> migrate n t = t.
Proof. intro H. unfold migrate. apply iequal_false in H. rewrite H. reflexivity. Qed.

Section P.
Variable same : bytes -> bytes -> bool.

Lemma custom_set st n t c : st_custom (fst (set_setting same st n t c)) = st_custom st.
Proof. unfold set_setting. destruct (findable _ _); reflexivity. Qed.
Lemma custom_steps l : forall st, st_custom (fold_left (step same) l st) = st_custom st.
Proof. induction l as [|a l IH]; intro st; auto. cbn [fold_left]. rewrite IH. unfold step. apply custom_set. Qed.
Lemma custom_load st d f : st_custom (load same st d f) = load_custom d.
Proof. unfold load. destruct f; [|reflexivity]. cbv zeta. apply custom_steps. Qed.
Lemma session_settled d st : session same d st -> settled same st /\ st_custom st = load_custom d.
Proof.
  induction 1 as [st f R|st n t S [IH1 IH2] V N|st n S [IH1 IH2]|st s S [IH1 IH2] D F|st n S [IH1 IH2]|st f st' S [IH1 IH2] E].
  - split; [apply settled_load; auto|apply custom_load].
  - split; [|rewrite custom_set; auto]. apply settled_set; auto; [|discriminate].
    intro X. apply undeclared_none in X. destruct (N X) as [N1 N2]. split; auto. apply not_auto. exact N2.
  - split; [apply settled_clear; auto|]. unfold clear_setting. destruct (findable _ _); exact IH2.
  - split; [|exact IH2]. apply settled_define; auto. destruct F as [F1 F2]. split; auto.
    eapply Forall_impl; [|exact F2]. intros x [X|X]; auto. right. apply undeclared_one. exact X.
  - split; [apply settled_undefine; auto|exact IH2].
  - unfold save in E. destruct (write_settings (st_reg st)); [|discriminate]. cbv zeta in E. injection E as _ <-.
    split; [apply settled_mark; auto|exact IH2].
Qed.

(** C32: the text a value is saved as is read as the same value. *)
Theorem values_survive k v : value_of k v -> match k with KEnum o => options_ok same o | _ => True end ->
  exists t, describe_val k v true = Some t /\ parse_val same k t = Some v.
Proof. apply describe_round. Qed.

(** C32: whatever a session did, its settings can be saved, and loading the file in another session that declares the same
    settings and has the same custom defaults gives every setting its value (and whether it is to be saved), and every entry
    of an undeclared setting. *)
Theorem settings_survive d st : session same d st -> colors_ok (st_reg st) ->
  exists f st1, save st = Some (f, st1) /\ st_reg st1 = st_reg st /\
    forall st2, map declaration (st_reg st2) = map declaration (st_reg st) ->
      st_reg (load same st2 d (Some f)) = st_reg st /\ st_loaded (load same st2 d (Some f)) = kept st.
Proof.
  intros S C. destruct (session_settled d st S) as [H E]. destruct (save_load same st H C) as (f & st1 & A & B & L).
  exists f, st1. split; auto. split; auto. intros st2 E2. rewrite (L st2 d E2 (eq_sym E)). split; reflexivity.
Qed.

(** ** C34 *)
Lemma loaded_steps l : forall st x, In x (st_loaded st) -> In x (st_loaded (fold_left (step same) l st)).
Proof.
  induction l as [|a l IH]; intros st x I; auto. cbn [fold_left]. apply IH. unfold step, set_setting. destruct (findable _ _); [exact I|].
  cbn [fst st_loaded]. generalize dependent (mkld (as_name a) (as_value a) (as_comment a) false). intro e. clear - I.
  induction (st_loaded st) as [|y m IH]; [destruct I|]. cbn [emplace]. destruct (eqb_bytes _ _); auto.
  destruct (ltb_bytes _ _); [right; auto|]. destruct I as [->|I]; [left; reflexivity|right; auto].
Qed.
Lemma loaded_names l : forall st x, In x (st_loaded (fold_left (step same) l st)) -> In x (st_loaded st) \/ In (l_name x) (map as_name l).
Proof.
  induction l as [|a l IH]; intros st x I; [left; exact I|]. cbn [fold_left] in I. apply IH in I as [I|I]; [|right; right; exact I].
  unfold step, set_setting in I. destruct (findable _ _); [left; exact I|]. cbn [fst st_loaded] in I. apply emplace_in in I as [->|I]; [right; left; reflexivity|left; exact I].
Qed.
Lemma emplace_new e m : ~ In (l_name e) (map l_name m) -> In e (emplace e m).
Proof.
  induction m as [|y m IH]; intro N; cbn [emplace]; [left; reflexivity|].
  destruct (eqb_bytes (l_name e) (l_name y)) eqn:E; [exfalso; apply N; left; apply eqb_bytes_eq in E; auto|].
  destruct (ltb_bytes _ _); [left; reflexivity|]. right. apply IH. intro X. apply N. right. exact X.
Qed.
Lemma decl_step st a : map declaration (st_reg (step same st a)) = map declaration (st_reg st).
Proof.
  unfold step, set_setting. destruct (findable _ _); [|reflexivity]. cbn [fst st_reg]. apply map_update. intro s. apply declaration_set.
Qed.
Lemma decl_steps l : forall st, map declaration (st_reg (fold_left (step same) l st)) = map declaration (st_reg st).
Proof. induction l as [|a l IH]; intro st; auto. cbn [fold_left]. rewrite IH. apply decl_step. Qed.
Lemma decl_load st d f : map declaration (st_reg (load same st d f)) = map declaration (st_reg st).
Proof.
  unfold load. cbv zeta. destruct f; [change (fun st a => fst (set_setting same st (as_name a) (as_value a) (Some (as_comment a)))) with (step same); rewrite decl_steps|];
    cbn [st_reg]; rewrite map_map; reflexivity.
Qed.

Definition is_comment (l : bytes) : bool := match skip_space l with c :: _ => Ascii.eqb c "#" | [] => false end.
Lemma load_lines_app cs A : forall B was com, (A = [] -> was = false) -> is_comment (last A []) = false ->
  load_lines cs (A ++ B) was com = load_lines cs A was com ++ load_lines cs B false [].
Proof.
  assert (N : forall B com, load_lines cs B false com = load_lines cs B false []) by (intros [|b B] com; reflexivity).
  induction A as [|l A IH]; intros B was com W L.
  - cbn [app]. rewrite W by auto. apply N.
  - assert (W' : forall w, A = [] -> w = is_comment l -> w = false) by (intros w -> ->; exact L).
    assert (L' : is_comment (last A []) = false) by (destruct A; [reflexivity|exact L]).
    cbn [app load_lines]. cbv zeta. fold (is_comment l). destruct (is_comment l) eqn:E.
    + apply IH; auto.
    + destruct (match split_at "=" (skip_space l) with Some kv => Some kv | None => if cs then split_at SPC (skip_space l) else None end) as [[k v]|].
      * cbn [app]. rewrite IH; auto.
      * apply IH; auto.
Qed.

Lemma in_content st x : In x (kept st) -> exists p q, content st = p ++ crlf (l_comment x ++ l_name x ++ lit " = " ++ l_value x ++ [LF]) ++ q.
Proof.
  intro I. apply in_split in I as (a & b & E). unfold content. rewrite E.
  exists (crlf (match write_settings (st_reg st) with Some w => w | None => [] end ++ match a ++ x :: b with [] => [] | _ => [LF; LF] end ++ flat_map write_extra a)),
    (crlf ([LF] ++ flat_map write_extra b)).
  rewrite flat_map_app. cbn [flat_map]. unfold crlf. rewrite <- !flat_map_app. f_equal. rewrite <- ?app_assoc. f_equal. f_equal. f_equal.
  unfold write_extra. rewrite <- ?app_assoc. reflexivity.
Qed.

(** C34: an assignment "name = value" of the settings file to a setting that is not declared, with the comment lines before it,
    is in the file saved after loading, if it is the first with that name. *)
Theorem entries_kept st d f A cls n v B :
  registry same (st_reg st) -> lines_of (until_nul f) = A ++ cls ++ (n ++ lit " = " ++ v) :: B ->
  is_comment (last A []) = false -> Forall (fun l => exists r, l = "#"%char :: r) cls ->
  name_ok n -> value_ok v -> ~ alike n (lit "clink.autoupdate") -> undeclared (st_reg st) n ->
  (forall cs a, In a (load_lines cs A false []) -> as_name a <> n) ->
  colors_ok (st_reg (load same st d (Some f))) ->
  exists st1 p q, save (load same st d (Some f)) = Some (p ++ crlf (unlines cls ++ n ++ lit " = " ++ v ++ [LF]) ++ q, st1).
Proof.
  intros R LS LC CL N V NA U FR C. pose proof (settled_load same st d (Some f) R) as S.
  assert (LO : Forall line_ok (lines_of (until_nul f))) by (apply lines_from_ok; [apply until_nul_in|intros x []]).
  assert (CL' : Forall (fun l => line_ok l /\ exists r, l = "#"%char :: r) cls).
  { rewrite LS in LO. apply Forall_app in LO as [_ LO]. apply Forall_app in LO as [LO _]. rewrite Forall_forall in *. intros l I. split; auto. }
  assert (RF : exists cs a2, read_file f = load_lines cs A false [] ++ mkas n v (unlines cls) :: a2).
  { unfold read_file. cbv zeta. rewrite LS. set (cs := clink_set_format _). exists cs. rewrite load_lines_app by auto.
    change (n ++ lit " = " ++ v) with (assignment n v). destruct cls as [|l cls].
    - cbn [app]. rewrite assign_lines by auto. rewrite (not_auto n v NA). eexists. reflexivity.
    - rewrite comment_lines by (auto; discriminate). rewrite assign_lines by auto. rewrite (not_auto n v NA). eexists. reflexivity. }
  destruct RF as (cs & a2 & RF). specialize (FR cs).
  set (x := mkld n v (unlines cls) false).
  assert (I : In x (st_loaded (load same st d (Some f)))).
  { unfold load. cbv zeta. change (fun st a => fst (set_setting same st (as_name a) (as_value a) (Some (as_comment a)))) with (step same).
    rewrite RF, fold_left_app. cbn [fold_left]. apply loaded_steps.
    set (st0 := mkst (map (reset same (custom_of (load_custom d))) (st_reg st)) [] (load_custom d)).
    set (st' := fold_left (step same) (load_lines cs A false []) st0).
    assert (FN : findable (st_reg st') n = None).
    { rewrite (findable_names _ (st_reg st) n); [apply undeclared_none; auto|]. apply declared_names. unfold st'. rewrite decl_steps. unfold st0. cbn [st_reg]. rewrite map_map. reflexivity. }
    unfold step, set_setting. cbn [as_name as_value as_comment]. rewrite FN. cbn [fst st_loaded]. apply emplace_new. cbn [l_name].
    intro X. apply in_map_iff in X as (y & Y1 & Y2). unfold st' in Y2. apply loaded_names in Y2 as [Y2|Y2]; [destruct Y2|].
    apply in_map_iff in Y2 as (a & A1 & A2). apply (FR a A2). congruence. }
  assert (K : In x (kept (load same st d (Some f)))).
  { apply filter_In. split; auto. cbn [x l_saved l_name negb andb].
    replace (existsb _ _) with false; [reflexivity|]. symmetry. apply existsb_none. intros s SI. apply eqb_bytes_neq. intro E.
    assert (In n (map s_name (st_reg st))).
    { rewrite <- (declared_names _ _ (decl_load st d (Some f))). apply in_map_iff. exists s. auto. }
    apply in_map_iff in H as (s' & E' & I'). unfold undeclared in U. rewrite Forall_forall in U. apply (U s' I'). left. rewrite E'. reflexivity. }
  destruct (in_content _ x K) as (p & q & E). eexists. exists p, q. rewrite (save_content same _ S C), E. reflexivity.
Qed.

(** C34: the last assignment to a declared setting that can be parsed wins. *)
Lemma step_other s st a : registry same (st_reg st) -> In s (st_reg st) ->
  (taken_for (as_name a) s -> parse_val same (s_kind s) (as_value a) = None) -> In s (st_reg (step same st a)).
Proof.
  intros R I NT. unfold step, set_setting. destruct (findable (st_reg st) (as_name a)) as [m|] eqn:E; [|exact I]. cbn [fst st_reg].
  assert (K : named m s = true -> fst (set_text same s (as_value a)) = s).
  { intro NM. unfold set_text. rewrite NT; [reflexivity|]. unfold named in NM. apply iequal_alike in NM. unfold findable in E.
    destruct (existsb (named (as_name a)) (st_reg st)); [injection E as <-; left; exact NM|].
    destruct (Nat.ltb_spec 32 (length (as_name a))) as [L|L]; [|discriminate].
    destruct (existsb (named (firstn 32 (as_name a))) (st_reg st)); [|discriminate]. injection E as <-. right. split; auto. }
  clear - I K. induction (st_reg st) as [|y reg IH]; [destruct I|]. cbn [update]. destruct (named m y) eqn:Y.
  - destruct I as [->|I]; [left; apply K; auto|right; exact I].
  - destruct I as [->|I]; [left; reflexivity|right; apply IH; auto].
Qed.
Lemma steps_other l : forall s st, registry same (st_reg st) -> In s (st_reg st) ->
  Forall (fun a => taken_for (as_name a) s -> parse_val same (s_kind s) (as_value a) = None) l -> In s (st_reg (fold_left (step same) l st)).
Proof.
  induction l as [|a l IH]; intros s st R I F; auto. cbn [fold_left]. pose proof (Forall_inv F) as F1. apply Forall_inv_tail in F. apply IH; auto.
  - eapply registry_decl; [apply decl_step|auto].
  - apply step_other; auto.
Qed.
Lemma step_this s st a v : registry same (st_reg st) -> In s (st_reg st) -> alike (s_name s) (as_name a) ->
  parse_val same (s_kind s) (as_value a) = Some v -> In (with_val s v true) (st_reg (step same st a)).
Proof.
  intros [_ R] I AL P. unfold step, set_setting.
  assert (E : findable (st_reg st) (as_name a) = Some (as_name a)).
  { unfold findable. replace (existsb (named (as_name a)) (st_reg st)) with true; [reflexivity|]. symmetry. apply existsb_exists. exists s. split; auto.
    apply iequal_alike. exact AL. }
  rewrite E. cbn [fst st_reg]. apply in_split in I as (p & q & EQ). rewrite EQ in *. rewrite update_at.
  - unfold set_text. rewrite P. apply in_or_app. right. left. reflexivity.
  - apply pairs_split in R. eapply Forall_impl; [|exact R]. intros y Y. cbn beta in Y. apply iequal_false. intro X. apply Y. unfold alike in *. congruence.
  - apply iequal_alike. exact AL.
Qed.
Theorem last_wins st d f a1 a a2 s v :
  registry same (st_reg st) -> read_file f = a1 ++ a :: a2 -> In s (st_reg st) -> alike (s_name s) (as_name a) ->
  parse_val same (s_kind s) (as_value a) = Some v ->
  Forall (fun b => taken_for (as_name b) s -> parse_val same (s_kind s) (as_value b) = None) a2 ->
  exists s', In s' (st_reg (load same st d (Some f))) /\ declaration s' = declaration s /\ s_val s' = v.
Proof.
  intros R RF I AL P F. unfold load. cbv zeta.
  change (fun st a => fst (set_setting same st (as_name a) (as_value a) (Some (as_comment a)))) with (step same).
  rewrite RF, fold_left_app. cbn [fold_left].
  set (st0 := mkst (map (reset same (custom_of (load_custom d))) (st_reg st)) [] (load_custom d)).
  set (st' := fold_left (step same) a1 st0).
  assert (D : map declaration (st_reg st') = map declaration (st_reg st)).
  { unfold st'. rewrite decl_steps. unfold st0. cbn [st_reg]. rewrite map_map. reflexivity. }
  assert (R' : registry same (st_reg st')) by (eapply registry_decl; eauto).
  assert (I' : exists s1, In s1 (st_reg st') /\ declaration s1 = declaration s).
  { assert (X : In (declaration s) (map declaration (st_reg st'))) by (rewrite D; apply in_map; exact I). apply in_map_iff in X as (s1 & A & B). eauto. }
  destruct I' as (s1 & I1 & D1). pose proof D1 as D1'. unfold declaration in D1'. injection D1' as N1 _ K1 _.
  exists (with_val s1 v true). split; [|split; [exact D1|reflexivity]].
  apply steps_other.
  - eapply registry_decl; [apply decl_step|auto].
  - apply step_this; auto; rewrite ?N1, ?K1; auto.
  - eapply Forall_impl; [|exact F]. intros b HB. unfold taken_for in *. cbn [with_val s_name s_kind]. rewrite N1, K1. exact HB.
Qed.

(** ** Changing the file from within a session *)
Lemma rollback_vals old reg : registry same old -> Forall (fun s => value_of0 (s_kind s) (s_val s)) old ->
  map declaration reg = map declaration old ->
  Forall2 (fun s s' => declaration s' = declaration s /\ (s_kind s <> KColor -> s_val s' = s_val s)) old (rollback same old reg).
Proof.
  intros [R1 R2] V E. unfold rollback.
  assert (K : forall pre post reg, old = pre ++ post -> map declaration reg = map declaration post ->
    Forall2 (fun s s' => declaration s' = declaration s /\ (s_kind s <> KColor -> s_val s' = s_val s)) post
      (map (fun s => match find (fun o => eqb_bytes (s_name o) (s_name s)) old with
                | Some o => match get_val (s_kind o) (s_val o) with Some t => fst (set_text same s t) | None => s end
                | None => s
                end) reg)).
  { intros pre post. revert pre. induction post as [|o post IH]; intros pre [|s reg'] EQ ED; try discriminate; [apply Forall2_nil|].
    cbn [map] in *. injection ED as E1 E2 E3 E4 E5. apply Forall2_cons.
    - assert (FD : find (fun x => eqb_bytes (s_name x) (s_name s)) old = Some o).
      { rewrite EQ. rewrite EQ in R2. apply pairs_split in R2. rewrite E1. clear - R2. induction pre as [|x pre IH]; cbn [app find].
        - rewrite eqb_bytes_refl. reflexivity.
        - pose proof (Forall_inv R2) as X. apply Forall_inv_tail in R2. destruct (eqb_bytes (s_name x) (s_name o)) eqn:Q; [|apply IH; auto].
          apply eqb_bytes_eq in Q. exfalso. apply X. rewrite Q. reflexivity. }
      rewrite FD. assert (DE : declaration s = declaration o) by (unfold declaration; congruence).
      assert (IO : In o old) by (rewrite EQ; apply in_or_app; right; left; reflexivity).
      split.
      + destruct (get_val _ _); [rewrite declaration_set|]; exact DE.
      + intro NC. rewrite Forall_forall in R1, V. specialize (R1 o IO). specialize (V o IO). cbn beta in V.
        assert (V' : value_of (s_kind o) (s_val o)) by (destruct (s_kind o); cbn in *; auto; congruence).
        destruct (describe_round same _ _ V' (opts_of_decl same o R1)) as (t & T & PT).
        assert (G : get_val (s_kind o) (s_val o) = Some t) by (rewrite <- T; destruct (s_kind o), (s_val o); try reflexivity; congruence).
        rewrite G. unfold set_text. rewrite E3, PT. reflexivity.
    - apply (IH (pre ++ [o])); auto. rewrite <- app_assoc. exact EQ. }
  apply (K [] old); auto.
Qed.
Lemma decl_set st n t c : map declaration (st_reg (fst (set_setting same st n t c))) = map declaration (st_reg st).
Proof.
  unfold set_setting. destruct (findable _ _); [|reflexivity]. cbn [fst st_reg]. apply map_update. intro s. apply declaration_set.
Qed.

(** C32: changing one setting in the file from within a session leaves the session's own values as they are (other than
    those of colors; see below). *)
Theorem sandbox_keeps_values d d' st f n t f' st' ok : session same d st ->
  sandboxed_set same st d' f n t = (f', st', ok) ->
  Forall2 (fun s s' => declaration s' = declaration s /\ (s_kind s <> KColor -> s_val s' = s_val s)) (st_reg st) (st_reg st').
Proof.
  intros S E. destruct (session_settled d st S) as [H _]. unfold sandboxed_set in E. cbv zeta in E.
  destruct (set_setting same (load same _ d' f) n t None) as [st2 b] eqn:SS.
  assert (D : map declaration (st_reg st2) = map declaration (st_reg st)).
  { replace st2 with (fst (set_setting same (load same (mkst (st_reg st) [] (st_custom st)) d' f) n t None)) by (rewrite SS; reflexivity).
    rewrite decl_set, decl_load. reflexivity. }
  assert (K : forall x, st_reg x = st_reg st2 ->
    Forall2 (fun s s' => declaration s' = declaration s /\ (s_kind s <> KColor -> s_val s' = s_val s)) (st_reg st) (rollback same (st_reg st) (st_reg x))).
  { intros x X. apply rollback_vals; [apply (ok_reg _ _ H)|apply (ok_vals _ _ H)|congruence]. }
  destruct b.
  - destruct (save st2) as [[f1 st3]|] eqn:SV; injection E as _ <- _; cbn [st_reg]; apply K; auto.
    unfold save in SV. destruct (write_settings (st_reg st2)); [|discriminate]. cbv zeta in SV. injection SV as _ <-. reflexivity.
  - injection E as _ <- _. cbn [st_reg]. apply K; auto.
Qed.

(** C32: the file then has the new value, and those it had for all other settings. *)
Theorem sandbox_changes_file d st f n t f' st' :
  registry same (st_reg st) -> value_ok t -> (undeclared (st_reg st) n -> name_ok n /\ ~ alike n (lit "clink.autoupdate")) ->
  colors_ok (st_reg (fst (set_setting same (load same st d f) n t None))) ->
  sandboxed_set same st d f n t = (f', st', true) ->
  exists f1, f' = Some f1 /\ forall st2, map declaration (st_reg st2) = map declaration (st_reg st) ->
    let was := load same st d f in
    let now := load same st2 d (Some f1) in
    forall s, In s (st_reg was) ->
      (~ taken_for n s -> In s (st_reg now)) /\
      (forall v, alike (s_name s) n -> parse_val same (s_kind s) t = Some v -> In (with_val s v true) (st_reg now)).
Proof.
  intros R V U C E. unfold sandboxed_set in E. cbv zeta in E.
  change (load same (mkst (st_reg st) [] (st_custom st)) d f) with (load same st d f) in E.
  pose proof (settled_load same st d f R) as S1. pose proof (custom_load st d f) as CU.
  assert (S2 : settled same (fst (set_setting same (load same st d f) n t None))).
  { apply settled_set; auto; [|discriminate]. rewrite (findable_names _ (st_reg st)) by (apply declared_names, decl_load). intro X. apply undeclared_none in X.
    destruct (U X) as [U1 U2]. split; auto. apply not_auto. exact U2. }
  destruct (save_load same _ S2 C) as (f1 & st1 & SV & _ & L).
  destruct (set_setting same (load same st d f) n t None) as [st2 b] eqn:SS. cbn [fst] in *. destruct b; [|discriminate].
  rewrite SV in E. injection E as <- <-. exists f1. split; auto. intros st3 D3. cbv zeta.
  assert (D2 : map declaration (st_reg st2) = map declaration (st_reg st)).
  { replace st2 with (fst (set_setting same (load same st d f) n t None)) by (rewrite SS; reflexivity). rewrite decl_set. apply decl_load. }
  assert (C2 : st_custom st2 = load_custom d).
  { replace st2 with (fst (set_setting same (load same st d f) n t None)) by (rewrite SS; reflexivity). rewrite custom_set. auto. }
  rewrite (L st3 d) by congruence. cbn [st_reg]. intros s I.
  assert (RG : st_reg st2 = st_reg (step same (load same st d f) (mkas n t []))).
  { unfold step. cbn [as_name as_value as_comment]. unfold set_setting in *. destruct (findable (st_reg (load same st d f)) n);
      apply (f_equal fst) in SS; cbn [fst] in SS; subst st2; reflexivity. }
  rewrite RG. split.
  - intro NT. apply step_other; auto; [apply (ok_reg _ _ S1)|]. cbn [as_name]. tauto.
  - intros v AL P. apply step_this; auto. apply (ok_reg _ _ S1).
Qed.
End P.

(** ** What does not hold *)
Definition plain (n : bytes) (k : kind) (v : val) : setting := mkset n (lit "About it") k v v false.
Definition text_of (o : option (bytes * store)) : option bytes := option_map fst o.
Definition vals_of (st : store) : list (bytes * val) := map (fun s => (s_name s, s_val s)) (st_reg st).
Definition no_store : store := mkst [] [] [].
Definition CRLF : bytes := [CR; LF].

(** Of two assignments to an undeclared setting the first is kept, though the last would be used. *)
Theorem undeclared_last_refuted :
  text_of (save (load iequal no_store None (Some (lit "a = 1" ++ CRLF ++ lit "a = 2" ++ CRLF)))) = Some (CRLF ++ CRLF ++ lit "a = 1" ++ CRLF ++ CRLF) /\
  vals_of (load iequal (mkst [plain (lit "a") KInt (VInt 0)] [] []) None (Some (lit "a = 1" ++ CRLF ++ lit "a = 2" ++ CRLF))) = [(lit "a", VInt 2)].
Proof. split; vm_compute; reflexivity. Qed.

(** Changing an undeclared setting that is in the file reports success, and leaves the file as it was. *)
Theorem undeclared_change_refuted :
  exists st', sandboxed_set iequal no_store None (Some (CRLF ++ CRLF ++ lit "a = 1" ++ CRLF ++ CRLF)) (lit "a") (lit "2") =
    (Some (CRLF ++ CRLF ++ lit "a = 1" ++ CRLF ++ CRLF), st', true).
Proof. eexists. vm_compute. reflexivity. Qed.

(** A color set in a session only is replaced by the one in the file when any setting is changed in the file. *)
Theorem sandbox_color_refuted :
  let st := load iequal (mkst [plain (lit "color.x") KColor (VStr (lit "red")); plain (lit "y") KInt (VInt 0)] [] []) None None in
  let st1 := fst (set_setting iequal st (lit "color.x") (lit "blue") None) in
  vals_of st1 = [(lit "color.x", VStr (lit "0;34")); (lit "y", VInt 0)] /\
  exists f st', sandboxed_set iequal st1 None (Some []) (lit "y") (lit "5") = (Some f, st', true) /\
    vals_of st' = [(lit "color.x", VStr (lit "0;31")); (lit "y", VInt 0)].
Proof. split; [vm_compute; reflexivity|]. eexists. eexists. split; vm_compute; reflexivity. Qed.

(** A string starting with a blank, or with a line break in it, comes back without. *)
Theorem blank_string_refuted :
  let st := fst (set_setting iequal (mkst [plain (lit "s") KStr (VStr [])] [] []) (lit "s") (lit " a" ++ [LF] ++ lit "b") None) in
  vals_of st = [(lit "s", VStr (lit " a" ++ [LF] ++ lit "b"))] /\
  vals_of (load iequal st None (text_of (save st))) = [(lit "s", VStr (lit "a"))].
Proof. split; vm_compute; reflexivity. Qed.

(** The entry of a setting that is declared and removed again is lost from the file, the second time it is saved. *)
Theorem removed_setting_refuted :
  let st := load iequal no_store None (Some (lit "a = 1" ++ CRLF)) in
  let st1 := define iequal st (plain (lit "a") KInt (VInt 0)) in
  match save st1 with
  | Some (f1, st2) =>
      vals_of st2 = [(lit "a", VInt 1)] /\ text_of (save (undefine st2 (lit "a"))) = Some [] /\
      text_of (save (undefine st1 (lit "a"))) = Some (CRLF ++ CRLF ++ lit "a = 1" ++ CRLF ++ CRLF)
  | None => False
  end.
Proof. split; [|split]; vm_compute; reflexivity. Qed.

(** An entry whose name differs in case from the setting declared later: the setting does not get its value, and when the
    setting has been set and saved, the old value comes back. *)
Theorem letter_case_refuted :
  let st := load iequal no_store None (Some (lit "My.Setting = 1" ++ CRLF)) in
  let st1 := define iequal st (plain (lit "my.setting") KInt (VInt 0)) in
  let st2 := fst (set_setting iequal st1 (lit "my.setting") (lit "7") None) in
  vals_of st1 = [(lit "my.setting", VInt 0)] /\ vals_of st2 = [(lit "my.setting", VInt 7)] /\
  vals_of (load iequal st2 None (text_of (save st2))) = [(lit "my.setting", VInt 1)].
Proof. split; [|split]; vm_compute; reflexivity. Qed.

(** An option whose name is a number is taken for the option of that number. *)
Theorem numeric_option_refuted :
  describe_val (KEnum (lit "2,0,1")) (VInt 1) true = Some (lit "0") /\
  parse_val iequal (KEnum (lit "2,0,1")) (lit "0") = Some (VInt 0).
Proof. split; vm_compute; reflexivity. Qed.

(** ** Examples *)
Definition demo : list setting :=
  [plain (lit "clink.autoupdate") (KEnum (lit "off,check,prompt,auto")) (VInt 1);
   plain (lit "color.arg") KColor (VStr (lit "bold green on blue"));
   plain (lit "history.max_lines") KInt (VInt 2500);
   plain (lit "history.shared") KBool (VBool false);
   plain (lit "prompt.text") KStr (VStr (lit "> "))].

Lemma demo_options : options_ok iequal (lit "off,check,prompt,auto").
Proof.
  split; [apply reg_line; reflexivity|]. change (options_of (lit "off,check,prompt,auto")) with [lit "off"; lit "check"; lit "prompt"; lit "auto"]. split.
  - intros i n H. do 4 (destruct i as [|i]; [injection H as <-; split; [apply lit_value; reflexivity|split; [discriminate|split; reflexivity]]|]).
    destruct i; discriminate.
  - intros i j n m L H1 H2.
    do 4 (destruct i as [|i]; [injection H1 as <-; destruct j as [|j]; [lia|]; do 4 (destruct j as [|j]; [first [lia|discriminate H2|injection H2 as <-; reflexivity]|]); destruct j; discriminate|]).
    destruct i; discriminate.
Qed.
Lemma lit_name n : forallb (fun c => negb (Ascii.eqb c CR) && negb (Ascii.eqb c LF) && negb (Ascii.eqb c NUL) && negb (Ascii.eqb c "=") && negb (is_space c) && negb (Ascii.eqb c "#")) n = true -> name_ok n.
Proof.
  intro F. rewrite forallb_forall in F.
  assert (K : forall c, In c n -> c <> CR /\ c <> LF /\ c <> NUL /\ c <> "="%char /\ ~ blank c /\ c <> "#"%char).
  { intros c I. specialize (F c I). rewrite !andb_true_iff in F. destruct F as (((((A & B) & C) & D) & E) & G).
    assert (NB : ~ blank c) by (intro X; apply is_space_blank in X; rewrite X in E; discriminate).
    split; [intros ->; discriminate|]. split; [intros ->; discriminate|]. split; [intros ->; discriminate|]. split; [intros ->; discriminate|].
    split; auto. intros ->; discriminate. }
  split; [intros c I; apply K in I; tauto|]. split; [intro I; apply K in I; tauto|]. split.
  - intros c r ->. assert (I : In c (c :: r)) by (left; reflexivity). apply K in I. tauto.
  - intros r c ->. assert (I : In c (r ++ [c])) by (apply in_or_app; right; left; reflexivity). apply K in I. tauto.
Qed.
Lemma demo_registry : registry iequal demo.
Proof.
  split.
  - unfold demo. apply Forall_cons; [|apply Forall_cons; [|apply Forall_cons; [|apply Forall_cons; [|apply Forall_cons; [|apply Forall_nil]]]]];
      (apply mkdecl; [apply lit_name; reflexivity|discriminate|cbn; lia|apply reg_line; reflexivity|cbn [plain s_kind]|cbn [plain s_kind s_default]|
        first [left; reflexivity|right; reflexivity]]); try exact Logic.I.
    + apply demo_options.
    + change (0 <= 1 < Z.of_nat 4)%Z. lia.
    + exists (lit "0;1;32;44"). split; [vm_compute; reflexivity|]. right. left. exists (lit "bold green on blue"). split; [|vm_compute; reflexivity].
      intros (bl & w & rest & E & F & W & R). destruct bl as [|b0 bl].
      * destruct w as [|a w]; [destruct W; discriminate|]. injection E as <- _. destruct W; discriminate.
      * injection E as <- _. pose proof (Forall_inv F). discriminate.
    + cbn. lia.
    + apply lit_value; reflexivity.
  - unfold demo. repeat (apply FOP_cons; [repeat (apply Forall_cons; [apply iequal_false; reflexivity|]); apply Forall_nil|]). apply FOP_nil.
Qed.

Definition demo_file : bytes :=
  lit "# When clink checks" ++ CRLF ++ lit "clink.autoupdate = off" ++ CRLF ++ CRLF ++
  lit "# name: Lines" ++ CRLF ++ lit "history.max_lines = 10" ++ CRLF ++ lit "HISTORY.max_lines=-7" ++ CRLF ++ lit "history.shared = maybe" ++ CRLF ++
  lit "# from a script" ++ CRLF ++ lit "# (not loaded today)" ++ CRLF ++ lit "zz.flavour = a = b" ++ CRLF.
Definition demo_state : store :=
  fst (set_setting iequal (fst (set_setting iequal (load iequal (mkst demo [] []) None (Some demo_file))
    (lit "color.arg") (lit "sgr 38;5;208") None)) (lit "prompt.text") (lit "$ ") None).
Example ex_demo : vals_of demo_state =
  [(lit "clink.autoupdate", VInt 0); (lit "color.arg", VStr (lit "38;5;208")); (lit "history.max_lines", VInt (-7));
   (lit "history.shared", VBool false); (lit "prompt.text", VStr (lit "$ "))] /\
  kept demo_state = [mkld (lit "zz.flavour") (lit "a = b") (lit "# from a script" ++ [LF] ++ lit "# (not loaded today)" ++ [LF]) false].
Proof. split; vm_compute; reflexivity. Qed.
Example ex_session : session iequal None demo_state /\ colors_ok (st_reg demo_state).
Proof.
  split.
  - unfold demo_state. apply s_set; [apply s_set; [apply s_load; exact demo_registry|apply lit_value; reflexivity|]|apply lit_value; reflexivity|];
      intros U; apply undeclared_none in U; vm_compute in U; discriminate.
  - unfold colors_ok.
    assert (E : st_reg demo_state = ltac:(let t := eval vm_compute in (st_reg demo_state) in exact t)) by (vm_compute; reflexivity).
    rewrite E. repeat (apply Forall_cons; [cbn [s_kind s_val]; intro K; try discriminate K|]); [|apply Forall_nil].
    right. right. exists 38%N, [5; 208]%N. split; [|split; [|discriminate]].
    + repeat (apply Forall2_cons; [split; [discriminate|split; reflexivity]|]). apply Forall2_nil.
    + apply Forall_cons; [lia|]. apply Forall_cons; [lia|]. apply Forall_cons; [lia|]. apply Forall_nil.
Qed.
Example ex_survives : vals_of (load iequal (mkst demo [] []) None (text_of (save demo_state))) = vals_of demo_state.
Proof. vm_compute. reflexivity. Qed.
Example ex_kept : exists A B, lines_of (until_nul demo_file) = A ++ [lit "# from a script"; lit "# (not loaded today)"] ++ (lit "zz.flavour" ++ lit " = " ++ lit "a = b") :: B /\
  is_comment (last A []) = false /\ undeclared demo (lit "zz.flavour") /\
  (forall cs a, In a (load_lines cs A false []) -> as_name a <> lit "zz.flavour").
Proof.
  exists [lit "# When clink checks"; lit "clink.autoupdate = off"; lit "# name: Lines"; lit "history.max_lines = 10"; lit "HISTORY.max_lines=-7"; lit "history.shared = maybe"], [].
  split; [vm_compute; reflexivity|]. split; [reflexivity|]. split; [apply undeclared_none; vm_compute; reflexivity|].
  intros cs a I. assert (X : In (as_name a) [lit "clink.autoupdate"; lit "history.max_lines"; lit "HISTORY.max_lines"; lit "history.shared"]).
  { destruct cs; vm_compute in I; destruct I as [<-|[<-|[<-|[<-|[]]]]]; cbn; tauto. }
  intro E. rewrite E in X. destruct X as [X|[X|[X|[X|[]]]]]; discriminate.
Qed.
Example ex_sandbox : exists f st', sandboxed_set iequal demo_state None (Some demo_file) (lit "history.max_lines") (lit "99") = (Some f, st', true) /\
  vals_of st' = [(lit "clink.autoupdate", VInt 0); (lit "color.arg", VStr (lit "0;1;32;44")); (lit "history.max_lines", VInt (-7));
   (lit "history.shared", VBool false); (lit "prompt.text", VStr (lit "$ "))] /\
  vals_of (load iequal (mkst demo [] []) None (Some f)) =
  [(lit "clink.autoupdate", VInt 0); (lit "color.arg", VStr (lit "0;1;32;44")); (lit "history.max_lines", VInt 99);
   (lit "history.shared", VBool false); (lit "prompt.text", VStr (lit "> "))].
Proof. eexists. eexists. split; [vm_compute; reflexivity|]. split; vm_compute; reflexivity. Qed.

Print Assumptions values_survive.
Print Assumptions settings_survive.
Print Assumptions entries_kept.
Print Assumptions last_wins.
Print Assumptions sandbox_keeps_values.
Print Assumptions sandbox_changes_file.
Print Assumptions undeclared_last_refuted.
Print Assumptions undeclared_change_refuted.
Print Assumptions sandbox_color_refuted.
Print Assumptions blank_string_refuted.
Print Assumptions removed_setting_refuted.
Print Assumptions letter_case_refuted.
Print Assumptions numeric_option_refuted.
