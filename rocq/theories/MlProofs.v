(** Proofs about the match list: building. *)
From Verif Require Import Base CmpModel PathModel MlModel MlSpec.
Local Open Scope N_scope.

Lemma same_text_iff a b : same_text a b = true <-> a = b.
Proof.
  revert b. induction a as [|x a IH]; destruct b as [|y b]; cbn [same_text]; try (split; [discriminate|discriminate]); [split; reflexivity|].
  rewrite andb_true_iff, N.eqb_eq, IH. split; [intros [-> ->]; reflexivity|intro E; injection E as -> ->; auto].
Qed.
Lemma history_or a b : from_history (N.lor a b) = from_history a || from_history b.
Proof. unfold from_history. apply N.lor_spec. Qed.
Lemma same_lookup_iff x y : same_lookup (text_of x, type_of x) (text_of y, type_of y) = true <-> clash x y.
Proof.
  unfold same_lookup, clash. cbn [fst snd]. rewrite andb_true_iff, orb_true_iff, same_text_iff, N.eqb_eq, history_or, orb_true_iff. tauto.
Qed.
Lemma clash_sym x y : clash x y -> clash y x.
Proof. unfold clash. intros [-> [H|[H|H]]]; auto. Qed.

(** ** Building *)
Definition lk (x : item) : text * N := (text_of x, type_of x).
Definition items (s : state) : list item := map item_of (infos s).
Definition set_of (d : option (list (text * N))) : list (text * N) := match d with Some l => l | None => [] end.
Record built_ok (s : state) : Prop := {
  b_set : forall y, In y (set_of (dedup s)) <-> In y (map lk (items s));
  b_null : infos s <> [] -> dedup s <> None;
  b_none : any_none s = existsb (fun e => is_type (type_ e) T_NONE) (infos s);
  b_ord : map ordinal (infos s) = map N.of_nat (seq 0 (length (infos s)));
  b_count : count s = short (N.of_nat (length (infos s)));
  b_coal : coalesced s = false
}.
Lemma in_set_exists (P : text * N -> bool) (l : list item) (d : list (text * N)) :
  (forall y, In y d <-> In y (map lk l)) -> existsb P d = existsb (fun x => P (lk x)) l.
Proof.
  intro H. apply eq_true_iff_eq. rewrite !existsb_exists. split.
  - intros (y & I & E). apply H in I. apply in_map_iff in I as (x & <- & I). exists x. auto.
  - intros (x & I & E). exists (lk x). split; [|exact E]. apply H. apply in_map. exact I.
Qed.
Section Build.
Variable walpha : N -> bool.
(** What is put down for an offer *)
Definition final (s : state) (o : offer) : item :=
  let '(m, t) := add_text walpha s (text_of (fst o)) (type_of (fst o)) (snd o) in (m, t, snd (fst o)).
Lemma add_text_state s s' m t n : mode s = mode s' -> sep s = sep s' -> fcd s = fcd s' -> add_text walpha s m t n = add_text walpha s' m t n.
Proof. intros E1 E2 E3. unfold add_text, translated. rewrite E1, E2, E3. reflexivity. Qed.
Lemma existsb_snoc {A} (P : A -> bool) l x : existsb P (l ++ [x]) = existsb P l || P x.
Proof. rewrite existsb_app. cbn [existsb]. rewrite orb_false_r. reflexivity. Qed.

Lemma add_ok s o : built_ok s -> text_of (fst o) <> [] ->
  let s' := add_match walpha s (text_of (fst o)) (type_of (fst o)) (snd (fst o)) (snd o) in
  built_ok s' /\ mode s' = mode s /\ sep s' = sep s /\ fcd s' = fcd s /\ nosort s' = nosort s /\ deprecated s' = deprecated s /\
  ((Forall (fun y => ~ clash y (final s o)) (items s) /\ items s' = items s ++ [final s o]) \/
   (Exists (fun y => clash y (final s o)) (items s) /\ items s' = items s)).
Proof.
  intros OK NE. cbv zeta. unfold add_match. rewrite (b_coal s OK). destruct (text_of (fst o)) as [|c0 m0] eqn:EM; [congruence|]. rewrite <- EM.
  unfold final. destruct (add_text walpha s (text_of (fst o)) (type_of (fst o)) (snd o)) as [m t] eqn:ET.
  assert (F : found (m, t) (dedup s) = existsb (fun x => same_lookup (m, t) (lk x)) (items s)).
  { rewrite <- (in_set_exists (same_lookup (m, t)) _ _ (b_set s OK)). destruct (dedup s); reflexivity. }
  destruct (found (m, t) (dedup s)) eqn:FD; symmetry in F.
  - split; [|do 5 (split; [reflexivity|])].
    + destruct OK as [B1 B2 B3 B4 B5 B6]. split; cbn [infos dedup any_none count coalesced]; auto.
      intros _ X. discriminate.
    + right. split; [|reflexivity]. apply existsb_exists in F as (x & I & E). apply Exists_exists. exists x. split; [exact I|]. apply clash_sym. apply (same_lookup_iff (m, t, snd (fst o)) x). exact E.
  - split; [|do 5 (split; [reflexivity|])].
    + destruct OK as [B1 B2 B3 B4 B5 B6]. split; cbn [infos dedup any_none count coalesced]; auto.
      * intro y. unfold items. cbn [infos]. rewrite map_app, map_app, in_app_iff. cbn [set_of In map].
        assert (E : In y (match dedup s with Some l => l | None => [] end) <-> In y (map lk (items s))) by (rewrite <- B1; destruct (dedup s); reflexivity).
        rewrite E. unfold lk at 3, item_of at 2. unfold text_of, type_of. cbn [match_ type_ fst snd]. unfold items. tauto.
      * intros _ X. discriminate.
      * rewrite existsb_snoc, <- B3. reflexivity.
      * rewrite map_app, app_length, seq_app, map_app, B4. reflexivity.
      * rewrite B5, app_length. cbn [length]. unfold short. rewrite N.add_mod_idemp_l by discriminate. f_equal. lia.
    + left. split.
      * apply Forall_forall. intros y I C. assert (X : existsb (fun x => same_lookup (m, t) (lk x)) (items s) = true); [|congruence].
        apply existsb_exists. exists y. split; [exact I|]. apply (same_lookup_iff (m, t, snd (fst o)) y). apply clash_sym. exact C.
      * unfold items. cbn [infos]. rewrite map_app. reflexivity.
Qed.
Lemma start_ok md sp : built_ok (start md sp).
Proof. split; cbn; auto; try discriminate; try tauto; congruence. Qed.

Lemma build_ok : forall l s0 s all, built_ok s -> mode s = mode s0 -> sep s = sep s0 -> fcd s = fcd s0 -> nosort s = nosort s0 -> deprecated s = deprecated s0 -> Forall (fun o => text_of (fst o) <> []) l -> kept all (items s) ->
  built_ok (build walpha s l) /\ mode (build walpha s l) = mode s0 /\ sep (build walpha s l) = sep s0 /\ fcd (build walpha s l) = fcd s0 /\ nosort (build walpha s l) = nosort s0 /\
  deprecated (build walpha s l) = deprecated s0 /\ kept (all ++ map (final s0) l) (items (build walpha s l)).
Proof.
  induction l as [|o l IH]; intros s0 s all OK E1 E2 E3 E4 E5 NE K.
  - cbn [build fold_left map]. rewrite app_nil_r. auto 10.
  - pose proof (add_ok s o OK (Forall_inv NE)) as A. cbv zeta in A. destruct A as (OK' & F1 & F2 & F3 & F4 & F5 & A).
    unfold build. cbn [fold_left map]. change (all ++ final s0 o :: map (final s0) l) with (all ++ ([final s0 o] ++ map (final s0) l)). rewrite app_assoc.
    assert (FE : final s o = final s0 o).
    { unfold final. rewrite (add_text_state s s0); auto. }
    rewrite FE in A.
    apply (IH s0); [exact OK'|congruence|congruence|congruence|congruence|congruence|exact (Forall_inv_tail NE)|].
    destruct A as [[A ->]|[A ->]]; [apply K_keep|apply K_drop]; assumption.
Qed.
Lemma build_empty l s : build walpha s l = build walpha s (filter (fun o => match text_of (fst o) with [] => false | _ => true end) l).
Proof.
  revert s. induction l as [|o l IH]; intro s; [reflexivity|]. unfold build. cbn [filter fold_left].
  destruct (text_of (fst o)) eqn:E.
  - assert (X : add_match walpha s [] (type_of (fst o)) (snd (fst o)) (snd o) = s) by (unfold add_match; destruct (coalesced s); reflexivity).
    rewrite X. apply IH.
  - cbn [fold_left]. rewrite E. apply IH.
Qed.
End Build.
Lemma kept_different l k : kept l k -> all_different k.
Proof.
  induction 1 as [|l k x K IH F|l k x K IH F]; [exact I| |exact IH].
  clear K. induction k as [|y k IHk]; cbn [app all_different]; [split; [constructor|exact I]|].
  destruct IH as [A B]. split; [|apply IHk; [exact (Forall_inv_tail F)|exact B]].
  apply Forall_app. split; [exact A|]. constructor; [exact (Forall_inv F)|constructor].
Qed.
Lemma kept_all l k : kept l k -> Forall (fun x => Exists (fun y => clash y x) k) l.
Proof.
  assert (R : forall x, clash x x) by (intro x; split; auto).
  induction 1 as [|l k x K IH F|l k x K IH F]; [constructor| |]; apply Forall_app; split.
  - eapply Forall_impl; [|exact IH]. cbn beta. intros a E. apply Exists_app. left. exact E.
  - constructor; [|constructor]. apply Exists_app. right. constructor. apply R.
  - exact IH.
  - constructor; [exact F|constructor].
Qed.
Lemma kept_sub l k : kept l k -> subsequence k l.
Proof.
  assert (SN : forall (a b : list item) x, subsequence a b -> subsequence a (b ++ [x])).
  { intros a b x. induction 1; cbn [app]; [apply S_skip, S_nil|apply S_skip; assumption|apply S_take; assumption]. }
  assert (ST : forall (a b : list item) x, subsequence a b -> subsequence (a ++ [x]) (b ++ [x])).
  { intros a b x. induction 1; cbn [app]; [apply S_take, S_nil|apply S_skip; assumption|apply S_take; assumption]. }
  induction 1; [constructor|apply ST; assumption|apply SN; assumption].
Qed.

(** ** done_building *)
Lemma different_mid a x b : all_different (a ++ x :: b) <-> all_different (a ++ b) /\ Forall (fun y => ~ clash y x) (a ++ b).
Proof.
  induction a as [|y a IH]; cbn [app all_different].
  - split; intros [A B].
    + split; [exact B|]. eapply Forall_impl; [|exact A]. cbn beta. intros y F C. exact (F (clash_sym _ _ C)).
    + split; [|exact A]. eapply Forall_impl; [|exact B]. cbn beta. intros y F C. exact (F (clash_sym _ _ C)).
  - split.
    + intros [B C]. apply IH in C as [C D]. apply Forall_app in B as [A B]. pose proof (Forall_inv B) as B1. pose proof (Forall_inv_tail B) as B2.
      split; [split; [apply Forall_app; auto|exact C]|]. constructor; [exact B1|exact D].
    + intros [[A B] C]. apply Forall_app in A as [A1 A2]. pose proof (Forall_inv C) as C1. pose proof (Forall_inv_tail C) as C2.
      split; [apply Forall_app; split; [exact A1|constructor; assumption]|]. apply IH. split; [exact B|exact C2].
Qed.
Lemma kind_base attrs m : base (kind attrs m) = T_FILE \/ base (kind attrs m) = T_DIR.
Proof. unfold kind. destruct (attrs m) as [[[] [] [] [] [] []]|]; vm_compute; auto. Qed.
Lemma kind_history attrs m : from_history (kind attrs m) = false.
Proof. unfold kind. destruct (attrs m) as [[[] [] [] [] [] []]|]; reflexivity. Qed.

Section Done.
Variable attrs : text -> option attr.
Variable c : N.
Definition convertible (e : info) : bool := is_type (type_ e) T_NONE && negb (from_history (type_ e)).
Definition conv (e : info) : info :=
  if convertible e
  then let t := kind attrs (match_ e) in
       mki (if is_type t T_DIR then put_end (match_ e) c else match_ e) t (ordinal e) (extra e) (select e)
  else e.
Lemma conv_not e : convertible (conv e) = false.
Proof.
  unfold conv. destruct (convertible e) eqn:E; [|exact E]. unfold convertible. cbn [type_]. unfold is_type.
  destruct (kind_base attrs (match_ e)) as [-> | ->]; reflexivity.
Qed.
Lemma conv_ordinal e : ordinal (conv e) = ordinal e.
Proof. unfold conv. destruct (convertible e); reflexivity. Qed.
Lemma sub_refl {A} (l : list A) : subsequence l l.
Proof. induction l; constructor; assumption. Qed.
Lemma sub_drop {A} (l a b : list A) x : subsequence l (a ++ b) -> subsequence l (a ++ x :: b).
Proof.
  revert l. induction a as [|y a IH]; intros l H; cbn [app] in *; [apply S_skip; exact H|].
  inversion H; subst; [apply S_skip|apply S_take]; apply IH; assumption.
Qed.
Lemma set_in (P : text * N -> bool) (l : list info) (d : list (text * N)) :
  (forall y, In y d <-> In y (map lk (map item_of l))) -> existsb P d = true <-> exists e, In e l /\ P (lk (item_of e)) = true.
Proof.
  intro H. rewrite (in_set_exists P _ _ H), existsb_exists. split.
  - intros (x & I & E). apply in_map_iff in I as (e & <- & I). exists e. auto.
  - intros (e & I & E). exists (item_of e). split; [apply in_map; exact I|exact E].
Qed.

Lemma retype_ok : forall i pre post set, length pre = i ->
  (forall y, In y set <-> In y (map lk (map item_of (pre ++ post)))) -> all_different (map item_of (pre ++ post)) ->
  exists l' d', retype attrs i c (pre ++ post) (Some set) = Some (l', d') /\
    all_different (map item_of l') /\ subsequence l' (map conv pre ++ post) /\
    (forall e, In e post -> In e l') /\ (forall e, In e pre -> convertible e = false -> In e l') /\
    (forall e, In e pre -> exists z, In z l' /\ clash (item_of z) (item_of (conv e))).
Proof.
  assert (RC : forall e, clash (item_of e) (item_of e)) by (intro e; split; auto).
  induction i as [|i IH]; intros pre post set L S D.
  - destruct pre; [|discriminate]. cbn [app map] in *. exists post, (Some set). split; [reflexivity|]. split; [exact D|]. split; [apply sub_refl|].
    split; [auto|]. split; intros e [].
  - destruct (@exists_last _ pre) as (pre' & e & ->); [destruct pre; [discriminate|congruence]|].
    rewrite app_length in L. cbn [length] in L. assert (L' : length pre' = i) by lia. clear L.
    rewrite <- app_assoc in S, D |- *. cbn [app] in S, D |- *. cbn [retype].
    assert (NE : nth_error (pre' ++ e :: post) i = Some e) by (rewrite nth_error_app2 by lia; replace (i - length pre')%nat with 0%nat by lia; reflexivity).
    rewrite NE.
    assert (F1 : firstn i (pre' ++ e :: post) = pre') by (rewrite firstn_app, L', Nat.sub_diag; cbn [firstn]; rewrite app_nil_r; apply firstn_all2; lia).
    assert (F2 : skipn (Datatypes.S i) (pre' ++ e :: post) = post).
    { replace (Datatypes.S i) with (length (pre' ++ [e])) by (rewrite app_length; cbn [length]; lia).
      change (pre' ++ e :: post) with (pre' ++ [e] ++ post). rewrite app_assoc, skipn_app, skipn_all, Nat.sub_diag. reflexivity. }
    rewrite F1, F2. fold (convertible e).
    assert (SPLIT : all_different (map item_of (pre' ++ post)) /\ Forall (fun y => ~ clash y (item_of e)) (map item_of (pre' ++ post))).
    { rewrite map_app in D |- *. apply different_mid. exact D. }
    destruct SPLIT as [D1 D2].
    destruct (convertible e) eqn:CV.
    + set (set' := remove_lookup (match_ e, type_ e) set).
      assert (S' : forall y, In y set' <-> In y (map lk (map item_of (pre' ++ post)))).
      { intro y. unfold set', remove_lookup. rewrite filter_In, S. rewrite !map_app. cbn [map]. rewrite !in_app_iff. cbn [In]. rewrite negb_true_iff.
        assert (NC : forall z, In z (map item_of (pre' ++ post)) -> same_lookup (match_ e, type_ e) (lk z) = false).
        { intros z I. destruct (same_lookup (match_ e, type_ e) (lk z)) eqn:E; [|reflexivity]. exfalso.
          apply (proj1 (Forall_forall _ _) D2 z I). apply clash_sym. apply (same_lookup_iff (item_of e) z). exact E. }
        split.
        - intros [[I|[<-|I]] N1]; auto. exfalso. assert (X : same_lookup (match_ e, type_ e) (lk (item_of e)) = true) by (apply (same_lookup_iff (item_of e) (item_of e)); apply RC). congruence.
        - intro I. split; [tauto|]. assert (I' : In y (map lk (map item_of (pre' ++ post)))) by (rewrite !map_app, in_app_iff; exact I).
          apply in_map_iff in I' as (z & <- & I'). apply NC. exact I'. }
      set (x := conv e).
      assert (CX : conv e = mki (if is_type (kind attrs (match_ e)) T_DIR then put_end (match_ e) c else match_ e) (kind attrs (match_ e)) (ordinal e) (extra e) (select e)) by (unfold conv; rewrite CV; reflexivity).
      assert (LX : (if is_type (kind attrs (match_ e)) T_DIR then put_end (match_ e) c else match_ e, kind attrs (match_ e)) = lk (item_of x)) by (unfold x; rewrite CX; reflexivity).
      rewrite LX. cbv zeta. rewrite <- CX. fold x.
      destruct (existsb (same_lookup (lk (item_of x))) set') eqn:EX.
      * destruct (IH pre' post set' L' S' D1) as (l' & d' & R & A1 & A2 & A3 & A4 & A5).
        exists l', d'. split; [exact R|]. split; [exact A1|]. rewrite map_app, <- app_assoc. split; [apply sub_drop; exact A2|].
        split; [exact A3|]. apply (set_in _ (pre' ++ post) _ S') in EX as (z & IZ & EZ). apply (same_lookup_iff (item_of x) (item_of z)) in EZ.
        assert (NZ : In z l').
        { apply in_app_iff in IZ as [IZ|IZ]; [|exact (A3 z IZ)]. apply A4; [exact IZ|]. destruct (convertible z) eqn:CZ; [|reflexivity]. exfalso.
          unfold convertible in CZ. apply andb_true_iff in CZ as [CZ1 CZ2]. apply negb_true_iff in CZ2. apply N.eqb_eq in CZ1.
          destruct EZ as [_ [T|[T|T]]]; unfold type_of, x in T; try rewrite CX in T; cbn [item_of fst snd type_] in T.
          - destruct (kind_base attrs (match_ e)) as [K|K]; rewrite T in K; rewrite K in CZ1; discriminate.
          - rewrite kind_history in T. discriminate.
          - congruence. }
        split.
        -- intros e0 I0 C0. apply in_app_iff in I0 as [I0|[<-|[]]]; [exact (A4 e0 I0 C0)|congruence].
        -- intros e0 I0. apply in_app_iff in I0 as [I0|[<-|[]]]; [exact (A5 e0 I0)|]. exists z. split; [exact NZ|]. apply clash_sym. exact EZ.
      * destruct (IH pre' (x :: post) (lk (item_of x) :: set') L') as (l' & d' & R & A1 & A2 & A3 & A4 & A5).
        { intro y. rewrite !map_app. cbn [map In]. rewrite in_app_iff. cbn [In]. rewrite S', !map_app, in_app_iff. tauto. }
        { rewrite map_app. cbn [map]. apply different_mid. rewrite <- map_app. split; [exact D1|]. apply Forall_forall. intros y I C.
          apply in_map_iff in I as (z & <- & I). assert (X : existsb (same_lookup (lk (item_of x))) set' = true); [|congruence].
          apply (set_in _ (pre' ++ post) _ S'). exists z. split; [exact I|]. apply (same_lookup_iff (item_of x) (item_of z)). apply clash_sym. exact C. }
        exists l', d'. split; [exact R|]. split; [exact A1|]. rewrite map_app, <- app_assoc. split; [exact A2|].
        split; [intros e0 I0; apply A3; right; exact I0|]. split.
        -- intros e0 I0 C0. apply in_app_iff in I0 as [I0|[<-|[]]]; [exact (A4 e0 I0 C0)|congruence].
        -- intros e0 I0. apply in_app_iff in I0 as [I0|[<-|[]]]; [exact (A5 e0 I0)|]. exists x. split; [apply A3; left; reflexivity|apply RC].
    + assert (CE : conv e = e) by (unfold conv; rewrite CV; reflexivity).
      destruct (IH pre' (e :: post) set L' S D) as (l' & d' & R & A1 & A2 & A3 & A4 & A5).
      exists l', d'. split; [exact R|]. split; [exact A1|]. rewrite map_app, <- app_assoc. cbn [map app]. rewrite CE. split; [exact A2|].
      split; [intros e0 I0; apply A3; right; exact I0|]. split.
      * intros e0 I0 C0. apply in_app_iff in I0 as [I0|[<-|[]]]; [exact (A4 e0 I0 C0)|apply A3; left; reflexivity].
      * intros e0 I0. apply in_app_iff in I0 as [I0|[<-|[]]]; [exact (A5 e0 I0)|]. exists e. rewrite CE. split; [apply A3; left; reflexivity|apply RC].
Qed.
End Done.
