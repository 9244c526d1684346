(** Proofs about settings: loading what was saved, and what holds at all times. *)
From Verif Require Import Base ColorModel ColorSpec SettingsModel SettingsSpec SettingsProofs SettingsFile.
Arguments dec : simpl never.

Section P.
Variable same : bytes -> bytes -> bool.

Definition step (st : store) (a : assign) : store := fst (set_setting same st (as_name a) (as_value a) (Some (as_comment a))).

Lemma kept_eq st : filter (fun x => negb (l_saved x)) (map (mark (st_reg st)) (st_loaded st)) = kept st.
Proof.
  unfold kept. induction (st_loaded st) as [|x m IH]; auto. cbn [map filter]. rewrite IH. unfold mark.
  destruct (existsb _ (st_reg st)); cbn [l_saved negb]; [rewrite andb_false_r; reflexivity|rewrite andb_true_r; reflexivity].
Qed.

Lemma parse_migrated s : declared same s -> full_value s ->
  parse_val same (s_kind s) (migrate (s_name s) (s_text s)) = Some (s_val s).
Proof.
  intros D V. destruct (describe_round same _ _ V (opts_of_decl same s D)) as (t & T & P). unfold s_text. rewrite T.
  destruct (d_auto _ _ D) as [A|A].
  - unfold migrate. rewrite A. exact P.
  - unfold migrate. destruct (iequal (s_name s) (lit "clink.autoupdate")); [|exact P].
    unfold full_value in V. rewrite A in *. destruct (s_val s) as [b|z|x]; cbn [value_of] in V; try contradiction.
    assert (Z.of_nat (length (options_of (lit "off,check,prompt,auto"))) = 4%Z) as E by reflexivity. rewrite E in V. clear E.
    assert (C : (z = 0 \/ z = 1 \/ z = 2 \/ z = 3)%Z) by lia. destruct C as [->|[->|[->| ->]]]; cbn [describe_val] in T; injection T as <-.
    + reflexivity.
    + exact P.
    + exact P.
    + exact P.
Qed.

Lemma reset_same C s s' : declared same s -> declaration s = declaration s' -> reset same C s = reset same C s'.
Proof.
  intros D E. pose proof (d_default _ _ D) as DD. destruct s as [n d k df v sv], s' as [n' d' k' df' v' sv']. unfold declaration in E. cbn in E. injection E as <- <- <- <-.
  cbn in DD. assert (R : reset_val same (mkset n d k df v sv) (C n) = reset_val same (mkset n d k df v' sv') (C n)).
  { unfold reset_val. cbn [s_kind s_default s_val]. destruct (match C n with Some t => parse_val same k t | None => None end); auto.
    destruct k; auto. destruct df; auto. destruct DD as (c & -> & _). reflexivity. }
  unfold reset. cbn [s_name]. cbv zeta. rewrite R. reflexivity.
Qed.
Lemma declaration_reset C s : declaration (reset same C s) = declaration s.
Proof. reflexivity. Qed.
Lemma with_val_id s : with_val s (s_val s) (s_save s) = s.
Proof. destruct s; reflexivity. Qed.
Lemma with_val_reset C s v b : with_val (reset same C s) v b = with_val s v b.
Proof. reflexivity. Qed.

Lemma existsb_named a s b : existsb (named (s_name s)) (a ++ s :: b) = true.
Proof. rewrite existsb_app. cbn. rewrite named_refl, orb_true_r. reflexivity. Qed.

Lemma pairs_split {A} (R : A -> A -> Prop) a x b : ForallOrdPairs R (a ++ x :: b) -> Forall (fun y => R y x) a.
Proof.
  induction a as [|y a IH]; cbn; intro H; [apply Forall_nil|]. inversion H as [|? ? F P]; subst. apply Forall_cons; auto.
  apply Forall_app in F as [_ F]. apply Forall_inv in F. exact F.
Qed.

Lemma load_known C : forall todo done m, registry same (done ++ todo) -> Forall full_value todo ->
  Forall (fun s => s_save s = false -> reset same (custom_of C) s = s) todo ->
  fold_left step (map (fun b => mkas (b_name b) (migrate (b_name b) (b_value b)) (unlines (b_comment b))) (map s_block (filter s_save todo)))
    (mkst (done ++ map (reset same (custom_of C)) todo) m C) = mkst (done ++ todo) m C.
Proof.
  induction todo as [|s todo IH]; intros done m R V S; [reflexivity|].
  pose proof (Forall_inv V) as V1. pose proof (Forall_inv S) as S1. cbn beta in S1. apply Forall_inv_tail in V, S.
  assert (D : declared same s). { destruct R as [R _]. rewrite Forall_forall in R. apply R. apply in_or_app. right. left. reflexivity. }
  assert (R' : registry same ((done ++ [s]) ++ todo)) by (rewrite <- app_assoc; exact R).
  specialize (IH (done ++ [s]) m R' V S). rewrite <- !app_assoc in IH. cbn [app] in IH.
  cbn [filter map]. destruct (s_save s) eqn:SV.
  - cbn [map fold_left]. rewrite <- IH. f_equal. unfold step, set_setting. cbn [as_name as_value as_comment b_name b_value b_comment s_block st_reg st_loaded st_custom].
    unfold findable. change (s_name s) with (s_name (reset same (custom_of C) s)) at 1. rewrite existsb_named. cbn [fst].
    rewrite update_at.
    + unfold set_text. change (s_kind (reset same (custom_of C) s)) with (s_kind s). rewrite parse_migrated by auto. cbn [fst].
      rewrite with_val_reset. replace (with_val s (s_val s) true) with s; [reflexivity|]. transitivity (with_val s (s_val s) (s_save s)); [symmetry; apply with_val_id|rewrite SV; reflexivity].
    + destruct R as [_ R]. apply pairs_split in R. eapply Forall_impl; [|exact R]. intros x X. apply iequal_false. exact X.
    + exact (named_refl (reset same (custom_of C) s)).
  - rewrite S1 by auto. exact IH.
Qed.

Lemma load_extras reg C : forall xs m, StronglySorted before (m ++ xs) -> Forall (fun x => findable reg (l_name x) = None /\ l_saved x = false) xs ->
  fold_left step (map (fun x => mkas (l_name x) (l_value x) (l_comment x)) xs) (mkst reg m C) = mkst reg (m ++ xs) C.
Proof.
  induction xs as [|x xs IH]; intros m S F; [rewrite app_nil_r; reflexivity|]. pose proof (Forall_inv F) as [F1 F2]. apply Forall_inv_tail in F.
  cbn [map fold_left]. unfold step at 2. unfold set_setting. cbn [as_name as_value as_comment st_reg st_loaded st_custom]. rewrite F1. cbn [fst].
  rewrite emplace_last.
  - replace (mkld (l_name x) (l_value x) (l_comment x) false) with x by (destruct x; cbn in F2; subst; reflexivity).
    rewrite (IH (m ++ [x])); rewrite <- ?app_assoc; auto.
  - clear - S. induction m as [|y m IH]; [apply Forall_nil|]. inversion S as [|? ? S' G]; subst. apply Forall_cons; auto.
    apply Forall_app in G as [_ G]. apply Forall_inv in G. exact G.
Qed.

Lemma existsb_names (f : bytes -> bool) reg reg' : map s_name reg = map s_name reg' ->
  existsb (fun s => f (s_name s)) reg = existsb (fun s => f (s_name s)) reg'.
Proof.
  revert reg'. induction reg as [|s reg IH]; intros [|s' reg'] E; try discriminate; auto.
  cbn in *. injection E as E1 E2. rewrite E1, (IH reg'); auto.
Qed.
Lemma findable_names reg reg' n : map s_name reg = map s_name reg' -> findable reg n = findable reg' n.
Proof.
  intro E. unfold findable, named. rewrite (existsb_names (fun x => iequal x n) _ _ E), (existsb_names (fun x => iequal x (firstn 32 n)) _ _ E). reflexivity.
Qed.
Lemma in_exact reg n : In n (map s_name reg) <-> existsb (fun s => eqb_bytes (s_name s) n) reg = true.
Proof.
  rewrite existsb_exists, in_map_iff. split.
  - intros (s & E & I). exists s. split; auto. apply eqb_bytes_eq. exact E.
  - intros (s & I & E). exists s. split; auto. apply eqb_bytes_eq. exact E.
Qed.

Lemma kept_ok st : settled same st -> Forall entry_ok (kept st) /\ StronglySorted before (kept st) /\
  Forall (fun x => findable (st_reg st) (l_name x) = None /\ l_saved x = false) (kept st).
Proof.
  intro H. split; [|split].
  - apply Forall_forall. intros x X. apply filter_In in X as [X _]. pose proof (ok_entries _ _ H) as E. rewrite Forall_forall in E. auto.
  - apply filter_sorted. apply (ok_sorted _ _ H).
  - apply Forall_forall. intros x X. apply filter_In in X as [X Y]. apply andb_true_iff in Y as [Y1 Y2].
    pose proof (ok_unknown _ _ H) as E. rewrite Forall_forall in E. specialize (E x X). split; [|destruct (l_saved x); auto; discriminate].
    destruct E as [E|E]; auto. apply in_exact in E. rewrite E in Y2. discriminate.
Qed.

Lemma declared_names reg reg' : map declaration reg = map declaration reg' -> map s_name reg = map s_name reg'.
Proof.
  intro E. apply (f_equal (map (fun d : bytes * bytes * kind * val => fst (fst (fst d))))) in E. rewrite !map_map in E. exact E.
Qed.
Lemma map_reset C reg reg' : Forall (declared same) reg -> map declaration reg' = map declaration reg ->
  map (reset same C) reg' = map (reset same C) reg.
Proof.
  revert reg'. induction reg as [|s reg IH]; intros [|s' reg'] F E; try discriminate; auto.
  pose proof (Forall_inv F) as D. apply Forall_inv_tail in F. cbn [map] in *. injection E as E1 E2.
  rewrite (IH reg'), (reset_same C s s'); auto. unfold declaration. congruence.
Qed.

Definition content (st : store) : bytes :=
  crlf (match write_settings (st_reg st) with Some a => a | None => [] end ++
        (match kept st with [] => [] | _ => [LF; LF] end) ++ flat_map write_extra (kept st)).

Lemma save_content st : settled same st -> colors_ok (st_reg st) ->
  save st = Some (content st, mkst (st_reg st) (map (mark (st_reg st)) (st_loaded st)) (st_custom st)).
Proof.
  intros H C. pose proof (full _ (ok_vals _ _ H) C) as V. destruct (ok_reg _ _ H) as [D _].
  unfold save, content. rewrite (write_all same _ D V). cbv zeta. rewrite kept_eq. reflexivity.
Qed.
Lemma read_content st : settled same st -> colors_ok (st_reg st) ->
  read_file (content st) =
  map (fun b => mkas (b_name b) (migrate (b_name b) (b_value b)) (unlines (b_comment b))) (map s_block (filter s_save (st_reg st))) ++
  map (fun x => mkas (l_name x) (l_value x) (l_comment x)) (kept st).
Proof.
  intros H C. pose proof (full _ (ok_vals _ _ H) C) as V. destruct (ok_reg _ _ H) as [D _].
  destruct (kept_ok st H) as (K1 & K2 & K3). destruct (extra_blocks (kept st) K1) as (bs & B1 & B2 & B3).
  unfold content. rewrite (write_all same _ D V), B2.
  replace (match kept st with [] => [] | _ => [LF; LF] end) with (unlines (match kept st with [] => [] | _ => [[]; []] end)) by (destruct (kept st); reflexivity).
  rewrite <- !unlines_app. rewrite read_blocks; auto.
  - rewrite map_app, B3. reflexivity.
  - apply Forall_forall. intros b Hb. apply in_map_iff in Hb as (s & <- & Hs). apply filter_In in Hs as [Hs _].
    rewrite Forall_forall in D, V. apply (s_block_ok same); auto.
  - destruct (kept st); [apply Forall_nil|]. apply Forall_cons; auto.
Qed.

Theorem save_load st : settled same st -> colors_ok (st_reg st) ->
  exists f st1, save st = Some (f, st1) /\ st_reg st1 = st_reg st /\
    forall st2 defaults, map declaration (st_reg st2) = map declaration (st_reg st) -> load_custom defaults = st_custom st ->
      load same st2 defaults (Some f) = mkst (st_reg st) (kept st) (st_custom st).
Proof.
  intros H C. eexists. eexists. split; [apply save_content; auto|]. split; [reflexivity|].
  intros st2 defaults E1 E2. unfold load. rewrite E2. cbv zeta. rewrite read_content by auto.
  pose proof (full _ (ok_vals _ _ H) C) as V. destruct (ok_reg _ _ H) as [D R].
  rewrite (map_reset _ (st_reg st) (st_reg st2) D E1). rewrite fold_left_app.
  change (fun st a => fst (set_setting same st (as_name a) (as_value a) (Some (as_comment a)))) with step.
  pose proof (load_known (st_custom st) (st_reg st) [] []) as LK. cbn [app] in LK. rewrite LK; auto.
  - destruct (kept_ok st H) as (K1 & K2 & K3). rewrite load_extras; auto.
  - apply (ok_reg _ _ H).
  - apply (ok_save _ _ H).
Qed.

(** ** What holds at all times *)
Lemma registry_decl reg reg' : map declaration reg' = map declaration reg -> registry same reg -> registry same reg'.
Proof.
  intros E [A B]. split.
  - clear B. revert reg' E. induction A as [|s reg D A IH]; intros [|s' reg'] E; try discriminate; [apply Forall_nil|].
    cbn in E. injection E as E1 E2 E3 E4 E5. apply Forall_cons; auto. destruct D. apply mkdecl; rewrite ?E1, ?E2, ?E3, ?E4; auto.
  - apply declared_names in E. clear A. revert reg' E. induction B as [|s reg F B IH]; intros [|s' reg'] E; try discriminate; [apply FOP_nil|].
    cbn in E. injection E as E1 E2. apply FOP_cons; auto. rewrite E1. clear - F E2. revert reg' E2.
    induction F as [|x reg X F IH]; intros [|x' reg'] E; try discriminate; [apply Forall_nil|]. cbn in E. injection E as E1 E2.
    apply Forall_cons; auto. rewrite E1. exact X.
Qed.
Lemma map_update n f reg : (forall s, declaration (f s) = declaration s) -> map declaration (update n f reg) = map declaration reg.
Proof. intro H. induction reg as [|s reg IH]; auto. cbn. destruct (named n s); cbn [map]; [rewrite H|rewrite IH]; reflexivity. Qed.
Lemma update_all (P : setting -> Prop) n f reg : Forall P reg -> (forall s, In s reg -> P s -> P (f s)) -> Forall P (update n f reg).
Proof.
  intros F H. induction F as [|s reg X F IH]; cbn; [apply Forall_nil|].
  destruct (named n s); apply Forall_cons; auto.
  - apply H; [left; reflexivity|auto].
  - apply IH. intros t T. apply H. right. exact T.
Qed.
Lemma clamp_range z : (-2147483648 <= clamp z <= 2147483647)%Z.
Proof. unfold clamp. lia. Qed.
Lemma atoi_range l : (-2147483648 <= atoi l <= 2147483647)%Z.
Proof.
  unfold atoi. destruct (skip_space l) as [|c r]; [lia|]. cbv zeta.
  destruct (Ascii.eqb c "-"); [apply clamp_range|]. destruct (Ascii.eqb c "+"); apply clamp_range.
Qed.
Lemma parse_value k t v : value_ok t -> parse_val same k t = Some v -> value_of0 k v.
Proof.
  intros V P. destruct k as [| |o| |]; cbn [parse_val] in P; cbv zeta in P.
  - repeat match type of P with (if ?b then _ else _) = _ => destruct b end; try (injection P as <-; exact Logic.I).
    destruct (str_trim t) as [|c r]; [discriminate|]. destruct (is_digit c); [|discriminate]. injection P as <-. exact Logic.I.
  - destruct t as [|c r]; [discriminate|]. destruct (is_digit c || _); [|discriminate]. injection P as <-. apply atoi_range.
  - destruct (enum_loop _ _ _ _ _) as [z|] eqn:E; [|discriminate]. injection P as <-. apply enum_loop_range in E. cbn. lia.
  - injection P as <-. exact V.
  - destruct (parse_color t); [|discriminate]. injection P as <-. exact Logic.I.
Qed.
Lemma custom_value C n t : Forall (fun x => value_ok (l_value x)) C -> custom_of C n = Some t -> value_ok t.
Proof.
  intros F E. unfold custom_of, loaded_find in E. destruct (find _ C) as [x|] eqn:X; [|discriminate]. injection E as <-.
  apply find_some in X as [X _]. rewrite Forall_forall in F. auto.
Qed.
Lemma reset_value C s : declared same s -> Forall (fun x => value_ok (l_value x)) C -> value_of0 (s_kind s) (s_val (reset same (custom_of C) s)).
Proof.
  intros D F. unfold reset. cbv zeta. cbn [with_val s_val]. unfold reset_val.
  pose proof (d_default _ _ D) as DD. destruct (custom_of C (s_name s)) as [t|] eqn:E.
  - destruct (parse_val same (s_kind s) t) as [v|] eqn:P.
    + eapply parse_value; eauto. eapply custom_value; eauto.
    + destruct (s_kind s), (s_default s); cbn in *; try contradiction; auto. destruct DD as (c & -> & _). exact Logic.I.
  - destruct (s_kind s), (s_default s); cbn in *; try contradiction; auto. destruct DD as (c & -> & _). exact Logic.I.
Qed.
Lemma declaration_set s t : declaration (fst (set_text same s t)) = declaration s.
Proof. unfold set_text. destruct (parse_val same (s_kind s) t); reflexivity. Qed.
Lemma reset_reset C s : declared same s -> reset same C (reset same C s) = reset same C s.
Proof. intro D. symmetry. apply reset_same; auto. Qed.

Lemma settled_update st n f : settled same st -> (forall s, declaration (f s) = declaration s) ->
  (forall s, declared same s -> value_of0 (s_kind s) (s_val s) -> value_of0 (s_kind s) (s_val (f s))) ->
  (forall s, declared same s -> (s_save s = false -> reset same (custom_of (st_custom st)) s = s) ->
     s_save (f s) = false -> reset same (custom_of (st_custom st)) (f s) = f s) ->
  settled same (mkst (update n f (st_reg st)) (st_loaded st) (st_custom st)).
Proof.
  intros [A B C D E F G] H1 H2 H3. pose proof (map_update n f (st_reg st) H1) as M.
  assert (DD : forall s, In s (st_reg st) -> declared same s). { destruct A as [A _]. rewrite Forall_forall in A. exact A. }
  apply mksettled; cbn [st_reg st_loaded st_custom]; auto.
  - eapply registry_decl; eauto.
  - apply update_all; auto. intros s I X. specialize (H1 s). unfold declaration in H1. injection H1 as _ _ K _. rewrite K. auto.
  - apply update_all; auto.
  - eapply Forall_impl; [|exact G]. intros x X. rewrite (declared_names _ _ M). rewrite (findable_names _ _ _ (declared_names _ _ M)). exact X.
Qed.

Lemma settled_set st n t c : settled same st -> value_ok t ->
  (findable (st_reg st) n = None -> name_ok n /\ migrate n t = t) -> (forall c', c = Some c' -> comment_ok c') ->
  settled same (fst (set_setting same st n t c)).
Proof.
  intros H V N CM. unfold set_setting. destruct (findable (st_reg st) n) as [m|] eqn:E; cbn [fst].
  - apply settled_update; auto.
    + intro s. apply declaration_set.
    + intros s D X. unfold set_text. destruct (parse_val same (s_kind s) t) as [v|] eqn:P; cbn [fst with_val s_val]; auto. eapply parse_value; eauto.
    + intros s D X. unfold set_text. destruct (parse_val same (s_kind s) t) as [v|] eqn:P; cbn [fst with_val s_save]; auto. discriminate.
  - destruct (N eq_refl) as [N1 N2]. destruct H as [A B C D S F G]. apply mksettled; cbn [st_reg st_loaded st_custom]; auto.
    + apply emplace_sorted. exact S.
    + apply Forall_forall. intros x X. apply emplace_in in X as [->|X]; [|rewrite Forall_forall in F; auto].
      apply mkentry; cbn [l_name l_value l_comment]; auto.
      destruct c as [c|]; [auto|]. unfold loaded_find. destruct (find _ (st_loaded st)) as [l|] eqn:L.
      * apply find_some in L as [L _]. rewrite Forall_forall in F. apply F in L. apply (e_comment _ L).
      * exists []. split; [reflexivity|apply Forall_nil].
    + apply Forall_forall. intros x X. apply emplace_in in X as [->|X]; [right; exact E|rewrite Forall_forall in G; auto].
Qed.
Lemma settled_clear st n : settled same st -> settled same (clear_setting same st n).
Proof.
  intro H. unfold clear_setting. destruct (findable (st_reg st) n) as [m|] eqn:E.
  - apply settled_update; auto.
    + intros s D _. apply reset_value; auto. apply (ok_custom _ _ H).
    + intros s D _ _. apply reset_reset. auto.
  - destruct H as [A B C D S F G]. apply mksettled; cbn [st_reg st_loaded st_custom]; auto.
    + apply filter_sorted. exact S.
    + apply Forall_forall. intros x X. apply filter_In in X as [X _]. rewrite Forall_forall in F. auto.
    + apply Forall_forall. intros x X. apply filter_In in X as [X _]. rewrite Forall_forall in G. auto.
Qed.

(** Reading any file. *)
Record assign_ok (a : assign) : Prop := mkaok {
  ao_name : name_ok (as_name a); ao_value : value_ok (as_value a); ao_comment : comment_ok (as_comment a);
  ao_auto : migrate (as_name a) (as_value a) = as_value a }.

Lemma until_nul_in l : ~ In NUL (until_nul l).
Proof.
  induction l as [|c l IH]; cbn [until_nul]; [intros []|]. destruct (Ascii.eqb_spec c NUL); [intros []|]. intros [H|H]; [congruence|auto].
Qed.
Lemma lines_from_ok l : forall cur, ~ In NUL l -> line_ok cur -> Forall line_ok (lines_from l cur).
Proof.
  induction l as [|c l IH]; intros cur N C; cbn [lines_from].
  - destruct cur; [apply Forall_nil|apply Forall_cons; auto].
  - assert (N' : ~ In NUL l) by (intro X; apply N; right; exact X).
    destruct (Ascii.eqb_spec c LF) as [->|N1]; [cbn [orb]|destruct (Ascii.eqb_spec c CR) as [->|N2]; cbn [orb]].
    + apply Forall_app. split; [destruct cur; [apply Forall_nil|apply Forall_cons; auto]|]. apply IH; auto. intros x [].
    + apply Forall_app. split; [destruct cur; [apply Forall_nil|apply Forall_cons; auto]|]. apply IH; auto. intros x [].
    + apply IH; auto. apply line_ok_app; auto. intros x [<-|[]]. split; [exact N2|]. split; [exact N1|]. intros ->. apply N. left. reflexivity.
Qed.
Lemma skip_space_suffix l : exists p, l = p ++ skip_space l.
Proof.
  induction l as [|c l (p & IH)]; [exists []; reflexivity|]. cbn [skip_space]. destruct (is_space c).
  - exists (c :: p). cbn. congruence.
  - exists []. reflexivity.
Qed.
Lemma skip_space_first l c r : skip_space l = c :: r -> ~ blank c.
Proof.
  induction l as [|d l IH]; cbn [skip_space]; [discriminate|]. destruct (is_space d) eqn:E; auto.
  intros H B. injection H as -> ->. apply is_space_blank in B. congruence.
Qed.
Lemma line_part l p q r : l = p ++ q ++ r -> line_ok l -> line_ok q.
Proof. intros -> H c C. apply H. apply in_or_app. right. apply in_or_app. left. exact C. Qed.
Lemma skip_line l : line_ok l -> value_ok (skip_space l).
Proof.
  intro H. destruct (skip_space_suffix l) as (p & E). split; [eapply (line_part l p _ []); [rewrite app_nil_r; exact E|exact H]|].
  intros c r X. eapply skip_space_first; eauto.
Qed.
Lemma split_at_some d l : forall k v, split_at d l = Some (k, v) -> l = k ++ d :: v /\ ~ In d k.
Proof.
  induction l as [|c l IH]; intros k v H; cbn [split_at] in H; [discriminate|]. destruct (Ascii.eqb_spec c d) as [->|N].
  - injection H as <- <-. split; [reflexivity|intros []].
  - destruct (split_at d l) as [[a b]|]; [|discriminate]. injection H as <- <-. destruct (IH a b eq_refl) as [-> I]. split; [reflexivity|].
    intros [X|X]; auto.
Qed.
Lemma split_at_none d l : split_at d l = None -> ~ In d l.
Proof.
  induction l as [|c l IH]; intro H; cbn [split_at] in H; [intros []|]. destruct (Ascii.eqb_spec c d) as [->|N]; [discriminate|].
  destruct (split_at d l) as [[a b]|]; [discriminate|]. intros [X|X]; [auto|]. apply IH; auto.
Qed.
Lemma rtrim_prefix k : exists z, k = rtrim k ++ z.
Proof.
  unfold rtrim. destruct (skip_space_suffix (rev k)) as (p & E). exists (rev p).
  rewrite <- rev_app_distr, <- E, rev_involutive. reflexivity.
Qed.
Lemma rtrim_last k r c : rtrim k = r ++ [c] -> ~ blank c.
Proof.
  unfold rtrim. intro E. apply (f_equal (@rev _)) in E. rewrite rev_involutive, rev_unit in E. eapply skip_space_first; eauto.
Qed.
Lemma migrate_value n v : value_ok v -> value_ok (migrate n v).
Proof.
  intro V. unfold migrate. destruct (iequal n _); auto. cbv zeta. destruct (_ || _ || _); [apply lit_value; reflexivity|].
  destruct (_ || _ || _); [apply lit_value; reflexivity|auto].
Qed.
Lemma migrate_twice n v : migrate n (migrate n v) = migrate n v.
Proof.
  unfold migrate. destruct (iequal n (lit "clink.autoupdate")); auto. cbv zeta.
  destruct (iequal (str_trim v) (lit "false") || iequal (str_trim v) (lit "off") || iequal (str_trim v) (lit "no")) eqn:A; [reflexivity|].
  destruct (iequal (str_trim v) (lit "true") || iequal (str_trim v) (lit "on") || iequal (str_trim v) (lit "yes")) eqn:B; [reflexivity|].
  rewrite A, B. reflexivity.
Qed.
Lemma load_lines_ok cs ls : forall was com, Forall line_ok ls -> comment_ok com -> (cs = true -> Forall (fun l => ~ In "="%char l) ls) ->
  Forall assign_ok (load_lines cs ls was com).
Proof.
  induction ls as [|l ls IH]; intros was com F C E; [apply Forall_nil|]. pose proof (Forall_inv F) as L. apply Forall_inv_tail in F.
  assert (E' : cs = true -> Forall (fun l => ~ In "="%char l) ls) by (intro X; apply E in X; eapply Forall_inv_tail; eauto).
  cbn [load_lines]. cbv zeta.
  assert (C' : comment_ok (if was then com else [])) by (destruct was; auto; exists []; split; [reflexivity|apply Forall_nil]).
  generalize dependent (if was then com else []). clear C com. intros com C. pose proof (skip_line l L) as [D1 D2].
  destruct (skip_space_suffix l) as (p & LP). destruct (skip_space l) as [|c d] eqn:SL.
  - cbn [split_at]. destruct cs; apply IH; auto.
  - destruct (Ascii.eqb_spec c "#") as [->|NC].
    + apply IH; auto. destruct C as (ks & -> & K). exists (ks ++ ["#"%char :: d]). split.
      * rewrite unlines_app. unfold unlines at 3. cbn [map concat]. rewrite app_nil_r. reflexivity.
      * apply Forall_app. split; auto. apply Forall_cons; [|apply Forall_nil]. split; [auto|eexists; reflexivity].
    + assert (K : forall k v x, c :: d = k ++ x :: v -> ~ In "="%char k ->
         assign_ok (mkas (rtrim k) (migrate (rtrim k) (skip_space v)) com)).
      { intros k v x EQ NE. destruct (rtrim_prefix k) as (z & KZ). apply mkaok; cbn [as_name as_value as_comment].
        - split; [|split; [|split]].
          + apply (line_part (c :: d) [] (rtrim k) (z ++ x :: v)); [rewrite EQ, KZ at 1; cbn [app]; rewrite <- app_assoc; reflexivity|auto].
          + intro I. apply NE. rewrite KZ. apply in_or_app. left. exact I.
          + intros c' r R. rewrite R in KZ. rewrite KZ in EQ. cbn [app] in EQ. injection EQ as <- _. split; auto. eapply D2. reflexivity.
          + intros r c' R. eapply rtrim_last; eauto.
        - apply migrate_value. apply skip_line. apply (line_part (c :: d) (k ++ [x]) v []); [rewrite EQ, app_nil_r, <- app_assoc; reflexivity|auto].
        - exact C.
        - apply migrate_twice. }
      destruct (split_at "=" (c :: d)) as [[k v]|] eqn:S1.
      * apply split_at_some in S1 as [S1 S2]. apply Forall_cons; [eapply K; eauto|]. apply IH; auto.
      * destruct cs; [|apply IH; auto]. destruct (split_at SPC (c :: d)) as [[k v]|] eqn:S2; [|apply IH; auto].
        apply split_at_some in S2 as [S2 _]. apply Forall_cons; [|apply IH; auto]. eapply K; eauto.
        pose proof (Forall_inv (E eq_refl)) as NE. cbn beta in NE. intro I. apply NE. rewrite LP, S2. apply in_or_app. right. apply in_or_app. left. exact I.
Qed.
Lemma read_file_ok f : Forall assign_ok (read_file f).
Proof.
  unfold read_file. cbv zeta. apply load_lines_ok.
  - apply lines_from_ok; [apply until_nul_in|intros x []].
  - exists []. split; [reflexivity|apply Forall_nil].
  - unfold clink_set_format. intro H. rewrite forallb_forall in H. apply Forall_forall. intros l L. specialize (H l L).
    apply andb_true_iff in H as [_ H]. destruct (split_at "=" l) eqn:E; [discriminate|]. apply split_at_none. exact E.
Qed.
Lemma load_custom_ok d : Forall (fun x => value_ok (l_value x)) (load_custom d).
Proof.
  unfold load_custom. destruct d as [d|]; [|apply Forall_nil]. pose proof (read_file_ok d) as F.
  assert (K : forall l m, Forall assign_ok l -> Forall (fun x => value_ok (l_value x)) m ->
    Forall (fun x => value_ok (l_value x)) (fold_left (fun m a => emplace (mkld (as_name a) (as_value a) [] false) m) l m)).
  { clear. induction l as [|a l IH]; intros m F M; auto. pose proof (Forall_inv F) as A. apply Forall_inv_tail in F. cbn [fold_left]. apply IH; auto.
    apply Forall_forall. intros x X. apply emplace_in in X as [->|X]; [apply (ao_value _ A)|rewrite Forall_forall in M; auto]. }
  apply K; auto.
Qed.
Lemma settled_load0 reg C : registry same reg -> Forall (fun x => value_ok (l_value x)) C ->
  settled same (mkst (map (reset same (custom_of C)) reg) [] C).
Proof.
  intros R F. apply mksettled; cbn [st_reg st_loaded st_custom]; auto.
  - apply (registry_decl reg); auto. rewrite map_map. reflexivity.
  - destruct R as [R _]. apply Forall_forall. intros s S. apply in_map_iff in S as (s0 & <- & S). rewrite Forall_forall in R.
    change (s_kind (reset same (custom_of C) s0)) with (s_kind s0). apply reset_value; auto.
  - destruct R as [R _]. apply Forall_forall. intros s S. apply in_map_iff in S as (s0 & <- & S). rewrite Forall_forall in R. intros _. apply reset_reset; auto.
  - apply SSorted_nil.
Qed.
Lemma settled_steps l : forall st, settled same st -> Forall assign_ok l -> settled same (fold_left step l st).
Proof.
  induction l as [|a l IH]; intros st S F; auto. pose proof (Forall_inv F) as [A B C D]. apply Forall_inv_tail in F. cbn [fold_left]. apply IH; auto.
  unfold step. apply settled_set; auto. intros c' E. injection E as <-. exact C.
Qed.
Theorem settled_load st d f : registry same (st_reg st) -> settled same (load same st d f).
Proof.
  intro R. unfold load. cbv zeta. pose proof (settled_load0 (st_reg st) (load_custom d) R (load_custom_ok d)) as S0.
  destruct f as [f|]; auto. apply settled_steps; auto. apply read_file_ok.
Qed.

(** Declaring and removing settings. *)
Lemma existsb_none {A} (f : A -> bool) l : existsb f l = false <-> forall x, In x l -> f x = false.
Proof.
  split.
  - intros E x I. destruct (f x) eqn:F; auto. assert (existsb f l = true) by (apply existsb_exists; eauto). congruence.
  - intro H. destruct (existsb f l) eqn:E; auto. apply existsb_exists in E as (x & I & F). rewrite H in F by auto. discriminate.
Qed.
Lemma fop_snoc {A} (R : A -> A -> Prop) l x : ForallOrdPairs R l -> Forall (fun y => R y x) l -> ForallOrdPairs R (l ++ [x]).
Proof.
  induction 1 as [|y l F P IH]; intro G; cbn.
  - apply FOP_cons; [apply Forall_nil|apply FOP_nil].
  - pose proof (Forall_inv G) as G1. apply Forall_inv_tail in G. apply FOP_cons; auto. apply Forall_app. split; auto.
Qed.
Lemma fop_filter {A} (R : A -> A -> Prop) p l : ForallOrdPairs R l -> ForallOrdPairs R (filter p l).
Proof.
  induction 1 as [|y l F P IH]; cbn; [apply FOP_nil|]. destruct (p y); auto. apply FOP_cons; auto.
  apply Forall_forall. intros z Z. apply filter_In in Z as [Z _]. rewrite Forall_forall in F. auto.
Qed.
Definition fresh (st : store) (s : setting) : Prop :=
  Forall (fun x => ~ alike (s_name x) (s_name s)) (st_reg st) /\
  Forall (fun x => l_name x = s_name s \/ findable [s] (l_name x) = None) (st_loaded st).
Lemma findable_snoc reg s n : findable reg n = None -> findable [s] n = None -> findable (reg ++ [s]) n = None.
Proof.
  unfold findable. rewrite !existsb_app.
  destruct (existsb (named n) reg); [discriminate|]. destruct (existsb (named n) [s]); [discriminate|]. cbn [orb].
  destruct (Nat.ltb 32 (length n)); cbn [andb]; auto.
  destruct (existsb (named (firstn 32 n)) reg); [discriminate|]. destruct (existsb (named (firstn 32 n)) [s]); [discriminate|]. reflexivity.
Qed.
Lemma settled_define st s : settled same st -> declared same s -> fresh st s -> settled same (define same st s).
Proof.
  intros [A B C D S F G] DS [N1 N2]. unfold define. cbv zeta.
  set (s0 := reset same (custom_of (st_custom st)) s).
  set (s1 := match loaded_find (s_name s) (st_loaded st) with Some l => fst (set_text same s0 (l_value l)) | None => s0 end).
  assert (D1 : declaration s1 = declaration s).
  { unfold s1. destruct (loaded_find _ _); [rewrite declaration_set|]; reflexivity. }
  assert (D2 : map declaration (st_reg st ++ [s1]) = map declaration (st_reg st ++ [s])) by (rewrite !map_app; cbn [map]; rewrite D1; reflexivity).
  assert (V1 : value_of0 (s_kind s) (s_val s1)).
  { assert (V0 : value_of0 (s_kind s) (s_val s0)) by (apply reset_value; auto).
    unfold s1. destruct (loaded_find (s_name s) (st_loaded st)) as [l|] eqn:L; auto.
    unfold set_text. destruct (parse_val same (s_kind s0) (l_value l)) as [v|] eqn:P; auto. cbn [fst with_val s_val].
    eapply parse_value; [|exact P]. unfold loaded_find in L. apply find_some in L as [L _]. rewrite Forall_forall in F. apply (e_value _ (F _ L)). }
  apply mksettled; cbn [st_reg st_loaded st_custom]; auto.
  - apply (registry_decl (st_reg st ++ [s])); auto. destruct A as [A1 A2]. split.
    + apply Forall_app. split; auto.
    + apply fop_snoc; auto.
  - apply Forall_app. split; auto. apply Forall_cons; [|apply Forall_nil].
    assert (K : s_kind s1 = s_kind s) by (unfold declaration in D1; congruence). rewrite K. exact V1.
  - apply Forall_app. split; auto. apply Forall_cons; [|apply Forall_nil]. unfold s1.
    destruct (loaded_find (s_name s) (st_loaded st)) as [l|]; [|intros _; apply reset_reset; auto].
    unfold set_text. destruct (parse_val same (s_kind s0) (l_value l)) as [v|]; cbn [fst with_val s_save]; [discriminate|]. intros _. apply reset_reset; auto.
  - apply Forall_forall. intros x X. rewrite Forall_forall in G, N2. specialize (G x X). specialize (N2 x X).
    rewrite (declared_names _ _ D2), (findable_names _ _ _ (declared_names _ _ D2)). rewrite map_app, in_app_iff. cbn [map In].
    destruct G as [G|G]; auto. destruct N2 as [N2|N2]; auto. right. apply findable_snoc; auto.
Qed.
Lemma settled_undefine st n : settled same st -> settled same (undefine st n).
Proof.
  intros [A B C D S F G]. unfold undefine.
  assert (I : forall s, In s (filter (fun s => negb (named n s)) (st_reg st)) -> In s (st_reg st)) by (intros s X; apply filter_In in X; tauto).
  rewrite Forall_forall in B, C. destruct A as [A1 A2].
  apply mksettled; cbn [st_reg st_loaded st_custom]; auto.
  - split; [|apply fop_filter; auto]. rewrite Forall_forall in *. auto.
  - apply Forall_forall. auto.
  - apply Forall_forall. auto.
  - apply Forall_forall. intros x X. rewrite Forall_forall in G. specialize (G x X). destruct G as [G|G].
    + destruct (existsb (fun s => eqb_bytes (s_name s) (l_name x)) (filter (fun s => negb (named n s)) (st_reg st))) eqn:E; [left; apply in_exact; exact E|].
      right. unfold findable. apply in_map_iff in G as (s & GE & GI).
      assert (LEN : Nat.ltb 32 (length (l_name x)) = false).
      { rewrite Forall_forall in A1. pose proof (d_len _ _ (A1 s GI)) as L. rewrite GE in L. apply Nat.ltb_ge. exact L. }
      rewrite LEN. cbn [andb].
      replace (existsb (named (l_name x)) (filter (fun s => negb (named n s)) (st_reg st))) with false; [reflexivity|].
      symmetry. apply existsb_none. intros s' I'. unfold named. apply iequal_false. intro AL. rewrite <- GE in AL.
      assert (SS : s' = s).
      { apply I in I'. destruct (ForallOrdPairs_In A2 s' s I' GI) as [Y|[Y|Y]]; auto; exfalso; apply Y; auto. unfold alike in *. auto. }
      subst s'. rewrite existsb_none in E. specialize (E s I'). rewrite GE, eqb_bytes_refl in E. discriminate.
    + right. revert G. unfold findable.
      assert (K : forall m, existsb (named m) (st_reg st) = false -> existsb (named m) (filter (fun s => negb (named n s)) (st_reg st)) = false).
      { intros m E. rewrite existsb_none in *. auto. }
      destruct (existsb (named (l_name x)) (st_reg st)) eqn:E1; [discriminate|]. rewrite (K _ E1).
      destruct (Nat.ltb 32 (length (l_name x))); cbn [andb]; auto.
      destruct (existsb (named (firstn 32 (l_name x))) (st_reg st)) eqn:E2; [discriminate|]. rewrite (K _ E2). reflexivity.
Qed.
Lemma settled_mark st : settled same st -> settled same (mkst (st_reg st) (map (mark (st_reg st)) (st_loaded st)) (st_custom st)).
Proof.
  intros [A B C D S F G]. apply mksettled; cbn [st_reg st_loaded st_custom]; auto.
  - assert (NM : forall x, l_name (mark (st_reg st) x) = l_name x) by (intro x; unfold mark; destruct (existsb _ _); reflexivity).
    clear - S NM. induction S as [|x m S IH F]; cbn [map]; [apply SSorted_nil|]. apply SSorted_cons; auto.
    apply Forall_forall. intros y Y. apply in_map_iff in Y as (z & <- & Z). rewrite !NM. rewrite Forall_forall in F. auto.
  - apply Forall_forall. intros y Y. apply in_map_iff in Y as (z & <- & Z). rewrite Forall_forall in F. destruct (F z Z).
    unfold mark. destruct (existsb _ _); apply mkentry; auto.
  - apply Forall_forall. intros y Y. apply in_map_iff in Y as (z & <- & Z). rewrite Forall_forall in G. specialize (G z Z).
    unfold mark. destruct (existsb _ _); auto.
Qed.
End P.
