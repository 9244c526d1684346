(** C69: installing and uninstalling the autorun command. *)
From Verif Require Import Base AutorunModel AutorunSpec AutorunProofs.

Lemma same_place {A} : forall (a : list A) e b a2 e2 b2, a ++ e :: b = a2 ++ e2 :: b2 -> (a = a2 /\ e = e2 /\ b = b2) \/ In e2 (a ++ b).
Proof.
  induction a as [|x a IH]; intros e b a2 e2 b2 E; destruct a2 as [|x2 a2]; cbn in E; injection E as -> E.
  - auto.
  - right. subst b. cbn. apply in_or_app. right. left. reflexivity.
  - right. left. reflexivity.
  - destruct (IH _ _ _ _ _ E) as [(-> & -> & ->)|I]; auto. right. right. exact I.
Qed.
Lemma before_snoc a c : before (a ++ [c]) = before a ++ c ++ ["&"%char].
Proof. unfold before. rewrite flat_map_app. cbn. rewrite app_nil_r. reflexivity. Qed.
Lemma before_joined a : a <> [] -> before a = joined a ++ ["&"%char].
Proof.
  intro N. destruct (exists_last N) as (x & c & ->). rewrite before_snoc, joined_split. cbn [behind]. rewrite app_nil_r, app_assoc. reflexivity.
Qed.
Lemma joined_app a b : a <> [] -> joined (a ++ b) = joined a ++ behind b.
Proof.
  intro N. destruct (exists_last N) as (x & c & ->). rewrite <- app_assoc. cbn [app]. rewrite !joined_split. cbn [behind]. rewrite app_nil_r, <- app_assoc. reflexivity.
Qed.
Lemma left_behind b v : left_over (joined b) v -> left_over (behind b) v.
Proof.
  destruct b as [|c b]; auto. intros (z & r & E & F & H & V). exists ("&"%char :: z), r. split; [cbn [behind app]; congruence|]. split; auto.
  apply Forall_cons; auto. unfold lead. cbn. auto 10.
Qed.
Lemma left_behind' b v : left_over (behind b) v -> left_over (joined b) v.
Proof.
  intro L. assert (X := cmd_start_left (joined b)). rewrite (left_over_fun _ _ _ L (left_behind b _ X)). exact X.
Qed.

Section P.
Variable same_path : bytes -> bytes -> bool.

(** The place where the program's name is, among commands of which only one starts it *)
Lemma tag_place a e b : Forall command (a ++ e :: b) -> starts_clink e -> Forall (fun c => ~ starts_clink c) (a ++ b) ->
  exists x n y, In n needles /\ e = x ++ n ++ y /\ find_tag needles (joined (a ++ e :: b)) = Some (length (before a ++ x), true).
Proof.
  intros C E O. destruct (find_clink (joined (a ++ e :: b))) as [(x & n & y & F & I & V)|(F & N)].
  - destruct (needle_facts n I) as (_ & N1 & N2 & _). destruct (needle_place n N2 N1 _ _ _ V) as (a2 & e2 & b2 & x' & y' & P & Q & R).
    destruct (same_place _ _ _ _ _ _ P) as [(-> & -> & ->)|X].
    + exists x', n, y'. subst x. auto.
    + exfalso. rewrite Forall_forall in O. apply (O e2 X). exists n. split; auto. exists x', y'. auto.
  - exfalso. apply N. destruct E as (n & I & u & w & ->). exists n. split; auto. exists (before a ++ u), (w ++ behind b).
    rewrite joined_split, <- !app_assoc. reflexivity.
Qed.

Lemma right_extent A e B x n y : ~ In "&"%char e -> e = x ++ n ++ y -> (B = [] \/ exists r, B = "&"%char :: r) ->
  length (A ++ x) + index_of "&" (skipn (length (A ++ x)) (A ++ e ++ B)) = length (A ++ e).
Proof.
  intros N E HB. subst e. replace (A ++ (x ++ n ++ y) ++ B) with ((A ++ x) ++ (n ++ y) ++ B) by (rewrite <- !app_assoc; reflexivity).
  rewrite skipn_app, skipn_all, Nat.sub_diag. cbn [skipn app].
  assert (M : ~ In "&"%char (n ++ y)) by (intro X; apply N; apply in_or_app; right; exact X).
  destruct HB as [->|(r & ->)]; [rewrite app_nil_r, index_none by auto|rewrite index_amp by auto]; rewrite !app_length; lia.
Qed.
Lemma behind_cases b : behind b = [] \/ exists r, behind b = "&"%char :: r.
Proof. destruct b; cbn [behind]; eauto. Qed.

Lemma left_extent a e b x n y : Forall command (a ++ e :: b) -> e = x ++ n ++ y -> In n needles -> In QUOTE x ->
  let v := before a ++ e ++ behind b in
  scan_left v (length (before a ++ x)) true =
  match length (before a) with 0 | 1 => 0 | S (S j) => if Ascii.eqb (at_ v j) "&" then j else S j end.
Proof.
  intros C E I Q v. assert (CE : command e) by (rewrite Forall_forall in C; apply C; apply in_or_app; right; left; reflexivity).
  destruct (needle_facts n I) as (_ & _ & N2 & N3). destruct (last_quote x Q) as (u & w & X & W).
  assert (V : v = (before a ++ u) ++ QUOTE :: w ++ n ++ y ++ behind b) by (unfold v; rewrite E, X, <- !app_assoc; reflexivity).
  assert (NQ : forall i, length (before a ++ u) < i <= length (before a ++ x) -> at_ v i <> QUOTE).
  { intros i L. rewrite V. replace i with (length (before a ++ u) + S (i - S (length (before a ++ u)))) by lia. rewrite at_app_r. change (at_ (QUOTE :: ?t) (S ?k)) with (at_ t k).
    set (k := i - S (length (before a ++ u))). assert (K : k <= length w) by (unfold k; rewrite !app_length in *; subst x; rewrite app_length in L; cbn [length] in L; lia).
    change (at_ (QUOTE :: w ++ n ++ y ++ behind b) (S k)) with (at_ (w ++ n ++ y ++ behind b) k).
    destruct (Nat.eq_dec k (length w)) as [->|K2].
    - replace (length w) with (length w + 0) by lia. rewrite at_app_r. destruct n as [|h n]; [congruence|]. cbn. intros ->. apply N3. left. reflexivity.
    - rewrite at_app_l by lia. intro Z. apply W. rewrite <- Z. apply at_in. lia. }
  assert (AT : at_ v (length (before a ++ u)) = QUOTE).
  { rewrite V. replace (length (before a ++ u)) with (length (before a ++ u) + 0) by lia. rewrite at_app_r. reflexivity. }
  assert (EA : forall i, length (before a) <= i < length (before a ++ e) -> at_ v i <> "&"%char).
  { intros i L. unfold v. replace i with (length (before a) + (i - length (before a))) by lia. rewrite at_app_r. rewrite at_app_l by (rewrite app_length in L; lia).
    intro Z. apply CE. rewrite <- Z. apply at_in. rewrite app_length in L. lia. }
  assert (LX : length (before a ++ u) < length (before a ++ x)) by (subst x; rewrite !app_length; cbn [length]; lia).
  assert (LE : length (before a ++ x) < length (before a ++ e)) by (rewrite E, !app_length; destruct n; [congruence|]; cbn [length]; lia).
  destruct (length (before a ++ u)) as [|p] eqn:P.
  - rewrite app_length in P. rewrite scan_none_q by (intros i J; apply NQ; lia). replace (length (before a)) with 0 by lia. reflexivity.
  - rewrite (scan_quote v p) by (auto; lia).
    destruct (length (before a)) as [|k] eqn:K.
    + apply scan_none. intros i J. apply EA. lia.
    + assert (AK : at_ v k = "&"%char).
      { assert (NA : a <> []) by (intros ->; cbn in K; discriminate). unfold v. rewrite (before_joined a NA) in *. rewrite app_length in K. cbn [length] in K.
        rewrite <- app_assoc. replace k with (length (joined a) + 0) by lia. rewrite at_app_r. reflexivity. }
      assert (PK : k <= p) by (rewrite app_length, K in P; lia).
      destruct k as [|j].
      * apply scan_none. intros i J. apply EA. lia.
      * apply scan_amp; auto. intros i J. apply EA. lia.
Qed.

Lemma firstn_exact (a b : bytes) k : k = length a -> firstn k (a ++ b) = a.
Proof. intros ->. rewrite firstn_app, firstn_all, Nat.sub_diag. cbn. apply app_nil_r. Qed.
Lemma skipn_exact (a b : bytes) k : k = length a -> skipn k (a ++ b) = b.
Proof. intros ->. rewrite skipn_app, skipn_all, Nat.sub_diag. reflexivity. Qed.

Lemma uninstall_steps path a e b : Forall command (a ++ e :: b) -> starts_clink e -> Forall (fun c => ~ starts_clink c) (a ++ b) ->
  exists x n y, In n needles /\ e = x ++ n ++ y /\
    let v := before a ++ e ++ behind b in
    left_over (firstn (scan_left v (length (before a ++ x)) true) v ++ behind b) (uninstall same_path false path (Some (joined (a ++ e :: b)))) /\
    find_tag needles v = Some (length (before a ++ x), true).
Proof.
  intros C E O. destruct (tag_place a e b C E O) as (x & n & y & I & X & F). exists x, n, y. split; auto. split; auto. cbv zeta.
  assert (CE : command e) by (rewrite Forall_forall in C; apply C; apply in_or_app; right; left; reflexivity).
  rewrite joined_split in *. split; [|exact F]. unfold uninstall, find_entry. rewrite F. cbv iota. cbn [andb].
  rewrite (right_extent (before a) e (behind b) x n y CE X (behind_cases b)).
  rewrite copy_split.
  - rewrite !Nat.sub_0_r. rewrite app_assoc, (skipn_exact (before a ++ e)), <- app_assoc by reflexivity. apply cmd_start_left.
  - assert (G : forall v c q, scan_left v c q <= c).
    { intro v. induction c as [|c IH]; intro q; cbn [scan_left]; auto. destruct q; [specialize (IH (negb (Ascii.eqb (at_ v (S c)) QUOTE))); lia|].
      destruct (Ascii.eqb (at_ v (S c)) "&"); [destruct (Ascii.eqb (at_ v c) "&"); lia|]. specialize (IH false). lia. }
    specialize (G (before a ++ e ++ behind b) (length (before a ++ x)) true). subst e. rewrite !app_length in *. lia.
Qed.

(** C69: uninstalling removes clink's command, when its program is in quotes, with the "&" or "&&" before it, and keeps all
    others. *)
Theorem uninstall_removes path a a' e b : Forall command (a ++ e :: b) -> quoted_entry e -> Forall (fun c => ~ starts_clink c) (a ++ b) -> without_empty a a' ->
  left_over (joined (a' ++ b)) (uninstall same_path false path (Some (joined (a ++ e :: b)))).
Proof.
  intros C [E QE] O W. destruct (uninstall_steps path a e b C E O) as (x & n & y & I & X & L & _).
  cbv zeta in L. rewrite (left_extent a e b x n y C X I (QE n x y I X)) in L.
  generalize dependent (uninstall same_path false path (Some (joined (a ++ e :: b)))). intros U L.
  destruct W as [->|[<- W]].
  - destruct a' as [|c a'].
    + cbn in L. apply left_behind'. exact L.
    + rewrite before_joined in L by discriminate. rewrite (joined_split (c :: a') [] []) in L. cbn [behind app] in L. rewrite before_joined in L by discriminate.
      rewrite !app_nil_r in L. set (J := joined (c :: a')) in *. rewrite !app_length in L. cbn [length] in L.
      replace (length J + 1 + 1) with (S (S (length J))) in L by lia.
      replace (at_ _ (length J)) with "&"%char in L by (rewrite <- !app_assoc; replace (length J) with (length J + 0) by lia; rewrite at_app_r; reflexivity).
      change (Ascii.eqb "&" "&") with true in L. cbv iota in L. rewrite <- !app_assoc in L. rewrite firstn_exact in L by reflexivity.
      rewrite joined_app by discriminate. exact L.
  - destruct a as [|c a0] using rev_ind; [cbn in L; apply left_behind'; exact L|]. clear IHa0.
    assert (NC : c <> []) by (intros ->; apply (W a0); reflexivity). assert (NA : a0 ++ [c] <> []) by (destruct a0; discriminate).
    rewrite (before_joined _ NA) in L. rewrite joined_app by auto. set (J := joined (a0 ++ [c])) in *.
    assert (CC : command c) by (rewrite Forall_forall in C; apply C; apply in_or_app; left; apply in_or_app; right; left; reflexivity).
    destruct (exists_last NC) as (c1 & d & D).
    assert (JE : exists J1, J = J1 ++ [d]).
    { exists (before a0 ++ c1). unfold J. rewrite joined_split. cbn [behind]. rewrite app_nil_r, D, app_assoc. reflexivity. }
    destruct JE as (J1 & JE). rewrite JE in *. rewrite !app_length in L. cbn [length] in L.
    replace (length J1 + 1 + 1) with (S (S (length J1))) in L by lia.
    replace (at_ _ (length J1)) with d in L by (rewrite <- !app_assoc; replace (length J1) with (length J1 + 0) by lia; rewrite at_app_r; reflexivity).
    replace (Ascii.eqb d "&") with false in L
      by (symmetry; apply Ascii.eqb_neq; intro Z; apply CC; rewrite D; apply in_or_app; right; left; auto).
    replace (firstn (S (length J1)) _) with (J1 ++ [d]) in L; [exact L|]. symmetry. rewrite <- (app_assoc (J1 ++ [d])). apply firstn_exact. rewrite app_length. cbn. lia.
Qed.

(** C69: what does not start clink is left alone. *)
Theorem uninstall_nothing only path v : ~ starts_clink v -> uninstall same_path only path (Some v) = Some v.
Proof.
  intro N. unfold uninstall, find_entry. destruct (find_clink v) as [(x & n & y & F & I & V)|(F & _)]; [|rewrite F; reflexivity].
  exfalso. apply N. exists n. split; auto. exists x, y. exact V.
Qed.

(** When clink's program is not in quotes, and nothing before it is, all commands before it are lost. *)
Theorem unquoted_loses path a e b : Forall command (a ++ e :: b) -> starts_clink e -> Forall (fun c => ~ starts_clink c) (a ++ b) ->
  Forall (fun c => ~ In QUOTE c) (a ++ [e]) -> left_over (joined b) (uninstall same_path false path (Some (joined (a ++ e :: b)))).
Proof.
  intros C E O Q. destruct (uninstall_steps path a e b C E O) as (x & n & y & I & X & L & _). cbv zeta in L.
  rewrite scan_none_q in L; [cbn in L; apply left_behind'; exact L|]. intros i J.
  assert (NQ : ~ In QUOTE (before a ++ e)).
  { rewrite Forall_forall in Q. intro Z. apply in_app_or in Z as [Z|Z]; [|apply (Q e); auto; apply in_or_app; right; left; reflexivity].
    unfold before in Z. apply in_flat_map in Z as (c & CI & Z). apply in_app_or in Z as [Z|[Z|[]]]; [|discriminate]. apply (Q c); auto. apply in_or_app. auto. }
  destruct (needle_facts n I) as (_ & _ & N2 & _).
  rewrite app_assoc. rewrite at_app_l.
  - intro Z. apply NQ. rewrite <- Z. apply at_in. subst e. rewrite !app_length in *. destruct n; [congruence|]. cbn [length] in *. lia.
  - subst e. rewrite !app_length in *. destruct n; [congruence|]. cbn [length] in *. lia.
Qed.

(** C69: the uninstaller, which looks at the values of all users, only removes an entry whose program is in the directory given. *)
Lemma path_start_ok B dir R : ~ In QUOTE dir -> path_start (B ++ QUOTE :: dir ++ R) (length (B ++ QUOTE :: dir)) QUOTE = S (length B).
Proof.
  intro N. rewrite app_length. cbn [length].
  assert (G : forall k, k <= length dir -> path_start (B ++ QUOTE :: dir ++ R) (length B + S k) QUOTE = S (length B)).
  { induction k as [|k IH]; intro L.
    - replace (length B + 1) with (S (length B)) by lia. cbn [path_start].
      replace (at_ _ (length B)) with QUOTE by (replace (length B) with (length B + 0) by lia; rewrite at_app_r; reflexivity). reflexivity.
    - replace (length B + S (S k)) with (S (length B + S k)) by lia. cbn [path_start]. rewrite at_app_r.
      change (at_ (QUOTE :: dir ++ R) (S k)) with (at_ (dir ++ R) k). rewrite at_app_l by lia.
      replace (Ascii.eqb (at_ dir k) QUOTE) with false; [apply IH; lia|]. symmetry. apply Ascii.eqb_neq. intro Z. apply N. rewrite <- Z. apply at_in. lia. }
  apply G. lia.
Qed.
Theorem only_this_program path a e b u dir : Forall command (a ++ e :: b) -> starts_clink e -> Forall (fun c => ~ starts_clink c) (a ++ b) ->
  (forall n x y, In n needles -> e = x ++ n ++ y -> x = u ++ QUOTE :: dir) -> ~ In QUOTE dir ->
  let v := Some (joined (a ++ e :: b)) in
  uninstall same_path true path v = if same_path dir path then uninstall same_path false path v else v.
Proof.
  intros C E O U D v. destruct (uninstall_steps path a e b C E O) as (x & n & y & I & X & _ & F). cbv zeta in F.
  pose proof (U n x y I X) as XU. unfold v, uninstall, find_entry. rewrite joined_split, F. cbv iota. cbn [andb].
  replace (path_start _ _ QUOTE) with (S (length (before a ++ u))).
  - replace (firstn _ (skipn _ _)) with dir.
    + destruct (same_path dir path); reflexivity.
    + symmetry. rewrite X, XU. replace (before a ++ ((u ++ QUOTE :: dir) ++ n ++ y) ++ behind b) with ((before a ++ u ++ [QUOTE]) ++ dir ++ n ++ y ++ behind b)
        by (rewrite <- !app_assoc; cbn [app]; try rewrite <- !app_assoc; reflexivity).
      rewrite skipn_exact by (rewrite !app_length; cbn; lia). apply firstn_exact. rewrite !app_length. cbn [length]. lia.
  - symmetry. rewrite X, XU. replace (before a ++ ((u ++ QUOTE :: dir) ++ n ++ y) ++ behind b) with ((before a ++ u) ++ QUOTE :: dir ++ n ++ y ++ behind b)
        by (rewrite <- !app_assoc; cbn [app]; try rewrite <- !app_assoc; reflexivity).
    replace (before a ++ u ++ QUOTE :: dir) with ((before a ++ u) ++ QUOTE :: dir) by (rewrite <- app_assoc; reflexivity).
    apply path_start_ok. exact D.
Qed.

(** ** Installing *)
Lemma cmd_start_id v : (forall c r, v = c :: r -> ~ lead c) -> cmd_start v = v.
Proof.
  intro H. destruct v as [|c r]; auto. cbn [cmd_start]. destruct (is_space c || Ascii.eqb c "&") eqn:E; auto.
  exfalso. apply (H c r); auto. apply lead_iff. exact E.
Qed.
Lemma quote_not_lead : ~ lead QUOTE.
Proof. intro X. apply lead_iff in X. discriminate. Qed.
Lemma install_text path args v rest : uninstall same_path false path v = rest -> (forall t, rest = Some t -> tidy t) -> length path + length args <= 2000 ->
  install same_path path args v = Some (match rest with Some t => t ++ "&"%char :: new_entry path args | None => new_entry path args end).
Proof.
  intros R T L. unfold install. cbv zeta. rewrite R.
  change (QUOTE :: path ++ lit "\clink.bat"" inject --autorun" ++ match args with [] => [] | _ :: _ => SPC :: args end) with (new_entry path args).
  assert (LN : length (new_entry path args) <= length path + length args + 32).
  { unfold new_entry. cbn [length]. rewrite !app_length. change (length (lit "\clink.bat"" inject --autorun")) with 28. destruct args; cbn [length]; lia. }
  f_equal. destruct rest as [t|].
  - destruct (T t eq_refl) as [N H]. destruct t as [|c t]; [congruence|]. rewrite firstn_all2 by (rewrite !app_length; cbn [length]; lia).
    rewrite cmd_start_id; [rewrite <- app_assoc; reflexivity|]. intros d r D. cbn in D. injection D as <- _. apply (H c t). reflexivity.
  - cbn [app length]. rewrite firstn_all2 by lia. apply cmd_start_id. intros d r D. unfold new_entry in D. injection D as <- _. apply quote_not_lead.
Qed.

(** C69: installing puts clink's command behind what is there. *)
Theorem install_appends path args v : length path + length args <= 2000 -> (forall t, v = Some t -> tidy t /\ ~ starts_clink t) ->
  install same_path path args v = Some (match v with Some t => t ++ "&"%char :: new_entry path args | None => new_entry path args end).
Proof.
  intros L H. apply install_text; auto.
  - destruct v as [t|]; [|reflexivity]. apply uninstall_nothing. apply (H t eq_refl).
  - intros t E. apply (H t E).
Qed.
(** C69: when there is a command of clink's already (its program in quotes), it is replaced, and comes last. *)
Theorem install_replaces path args a a' e b : Forall command (a ++ e :: b) -> quoted_entry e -> Forall (fun c => ~ starts_clink c) (a ++ b) -> without_empty a a' ->
  length path + length args <= 2000 ->
  exists rest, left_over (joined (a' ++ b)) rest /\
    install same_path path args (Some (joined (a ++ e :: b))) = Some (match rest with Some t => t ++ "&"%char :: new_entry path args | None => new_entry path args end).
Proof.
  intros C Q O W L. pose proof (uninstall_removes path a a' e b C Q O W) as U. eexists. split; [exact U|]. apply install_text; auto.
  destruct U as (z & r & _ & _ & H & ->). intros t E. destruct r as [|c r]; [discriminate|]. injection E as <-. split; [discriminate|exact H].
Qed.

Lemma split_commands t : exists cs, cs <> [] /\ Forall command cs /\ joined cs = t.
Proof.
  induction t as [|c t (cs & N & F & J)].
  - exists [[]]. split; [discriminate|]. split; [|reflexivity]. apply Forall_cons; auto. intros [].
  - destruct cs as [|d cs]; [congruence|]. destruct (ascii_dec c "&") as [->|NC].
    + exists ([] :: d :: cs). split; [discriminate|]. split; [apply Forall_cons; auto; intros []|]. cbn [joined app]. cbn [joined] in J. rewrite J. reflexivity.
    + exists ((c :: d) :: cs). split; [discriminate|]. split.
      * apply Forall_cons; [|exact (Forall_inv_tail F)]. pose proof (Forall_inv F) as X. intros [Y|Y]; auto.
      * subst t. destruct cs; reflexivity.
Qed.
Lemma new_entry_quoted path args : quoted_entry (new_entry path args).
Proof.
  split.
  - exists (lit "clink.bat"" inject"). split; [unfold needles; cbn [In]; auto 20|].
    exists (QUOTE :: path ++ ["\"%char]), (lit " --autorun" ++ match args with [] => [] | _ => SPC :: args end). unfold new_entry. cbn [app]. rewrite <- app_assoc. reflexivity.
  - intros n a b I E. destruct (needle_facts n I) as (_ & _ & N2 & N3). destruct a as [|c a].
    + exfalso. destruct n as [|h n]; [congruence|]. unfold new_entry in E. cbn [app] in E. injection E as E _. apply N3. left. auto.
    + unfold new_entry in E. cbn [app] in E. injection E as E _. left. auto.
Qed.
Lemma new_entry_command path args : command path -> command args -> command (new_entry path args).
Proof.
  intros P A [X|X]; [discriminate|]. apply in_app_or in X as [X|X]; [auto|]. apply in_app_or in X as [X|X].
  - revert X. cbn. intros X. repeat (destruct X as [X|X]; [discriminate|]). exact X.
  - destruct args as [|c args]; [destruct X|]. destruct X as [X|X]; [discriminate|]. auto.
Qed.

(** C69: uninstalling what was installed gives back the value there was. *)
Theorem install_uninstall path args v : length path + length args <= 2000 -> command path -> command args ->
  (forall t, v = Some t -> tidy t /\ ~ starts_clink t /\ forall r, t <> r ++ ["&"%char]) ->
  uninstall same_path false path (install same_path path args v) = v.
Proof.
  intros L P A H. rewrite install_appends by (auto; intros t E; destruct (H t E) as (H1 & H2 & _); auto).
  pose proof (new_entry_command path args P A) as CE. pose proof (new_entry_quoted path args) as QE.
  destruct v as [t|].
  - destruct (H t eq_refl) as ((TN & T) & N & NE). destruct (split_commands t) as (cs & CN & F & J).
    assert (U : left_over (joined (cs ++ [])) (uninstall same_path false path (Some (joined (cs ++ new_entry path args :: []))))).
    { apply uninstall_removes; auto.
      - apply Forall_app. split; auto.
      - rewrite app_nil_r. apply Forall_forall. intros c CI S. apply N. destruct S as (n & NI & x & y & ->). exists n. split; auto.
        apply in_split in CI as (c1 & c2 & ->). rewrite <- J, joined_split. exists (before c1 ++ x), (y ++ behind c2). rewrite <- !app_assoc. reflexivity.
      - right. split; auto. intros x ->. destruct x as [|x0 x].
        + cbn in J. congruence.
        + apply (NE (joined (x0 :: x))). rewrite <- J. rewrite joined_app by discriminate. reflexivity. }
    rewrite !joined_app in U by auto. rewrite J in U. cbn [behind joined] in U. rewrite app_nil_r in U.
    apply (left_over_fun t); auto. exists [], t. split; auto. split; auto. split; auto. destruct t; [congruence|reflexivity].
  - pose proof (uninstall_removes path [] [] (new_entry path args) []) as U. cbn [app joined] in U. apply (left_over_fun []).
    + apply U; auto. right. split; auto. intros x X. destruct x; discriminate.
    + exists [], []. split; auto. split; auto. split; auto. discriminate.
Qed.
End P.

(** ** Arguments *)
Lemma trailing_stop a c b : c <> BSL -> trailing (a ++ c :: b) = trailing a.
Proof.
  intro N. induction a as [|x a IH]; cbn [app trailing].
  - replace (Ascii.eqb c BSL) with false; auto. symmetry. apply Ascii.eqb_neq. exact N.
  - destruct (Ascii.eqb x BSL); auto.
Qed.
Lemma trailing_all k : trailing (repeat BSL k) = k.
Proof. induction k as [|k IH]; cbn; auto. Qed.
Lemma rev_repeat (x : byte) k : rev (repeat x k) = repeat x k.
Proof. induction k as [|k IH]; cbn [repeat rev]; auto. rewrite IH. symmetry. apply repeat_cons. Qed.

Definition val (cur : option bytes) (bs : nat) : bytes := match cur with Some c => c | None => [] end ++ repeat BSL bs.
Definition begun (cur : option bytes) (bs : nat) : Prop := cur <> None \/ bs <> 0.
Lemma argv_text q a : forall bs cur, ~ In QUOTE a -> (q = true \/ (~ In SPC a /\ ~ In TAB a)) ->
  exists cur', (forall rest, argv (a ++ rest) bs q cur = argv rest (trailing (rev (repeat BSL bs ++ a))) q cur') /\
    val cur' (trailing (rev (repeat BSL bs ++ a))) = val cur bs ++ a /\ (begun cur bs \/ a <> [] -> begun cur' (trailing (rev (repeat BSL bs ++ a)))).
Proof.
  induction a as [|c a IH]; intros bs cur Q B.
  - exists cur. rewrite app_nil_r, rev_repeat, trailing_all. split; auto. split; [rewrite app_nil_r; auto|]. intros [X|X]; auto. congruence.
  - assert (Q2 : ~ In QUOTE a) by (intro X; apply Q; right; auto).
    assert (B2 : q = true \/ (~ In SPC a /\ ~ In TAB a)) by (destruct B as [B|[B1 B2]]; auto; right; split; intro X; [apply B1|apply B2]; right; auto).
    destruct (ascii_dec c BSL) as [->|NB].
    + destruct (IH (S bs) cur Q2 B2) as (cur' & E & V & G). exists cur'.
      replace (repeat BSL bs ++ BSL :: a) with (repeat BSL (S bs) ++ a).
      * split; [|split].
        -- intro rest. cbn [app argv]. change (Ascii.eqb BSL BSL) with true. cbv iota. apply E.
        -- rewrite V. unfold val. rewrite <- !app_assoc. f_equal. change (BSL :: a) with ([BSL] ++ a). rewrite app_assoc, <- repeat_cons. reflexivity.
        -- intros _. apply G. left. right. discriminate.
      * change (BSL :: a) with ([BSL] ++ a). rewrite app_assoc, <- repeat_cons. reflexivity.
    + destruct (IH 0 (more cur bs [c]) Q2 B2) as (cur' & E & V & G). exists cur'.
      replace (trailing (rev (repeat BSL bs ++ c :: a))) with (trailing (rev (repeat BSL 0 ++ a)))
        by (cbn [repeat app]; rewrite rev_app_distr; cbn [rev]; rewrite <- !app_assoc; cbn [app]; symmetry; apply trailing_stop; exact NB).
      split; [|split].
      * intro rest. cbn [app argv]. replace (Ascii.eqb c BSL) with false by (symmetry; apply Ascii.eqb_neq; auto).
        replace (Ascii.eqb c QUOTE) with false by (symmetry; apply Ascii.eqb_neq; intros ->; apply Q; left; reflexivity).
        replace ((Ascii.eqb c SPC || Ascii.eqb c TAB) && negb q) with false; [apply E|]. symmetry. destruct B as [->|[B1 B3]]; [apply andb_false_r|].
        replace (Ascii.eqb c SPC) with false by (symmetry; apply Ascii.eqb_neq; intros ->; apply B1; left; reflexivity).
        replace (Ascii.eqb c TAB) with false by (symmetry; apply Ascii.eqb_neq; intros ->; apply B3; left; reflexivity). reflexivity.
      * rewrite V. unfold val, more. cbn [repeat]. rewrite app_nil_r, <- !app_assoc. reflexivity.
      * intros _. apply G. left. left. discriminate.
Qed.
(** An argument ends at a space or at the end. *)
Lemma argv_end cur bs : begun cur bs -> argv [] bs false cur = [val cur bs].
Proof. intro G. cbn [argv]. unfold more, val. rewrite app_nil_r. destruct cur, bs; auto. destruct G; congruence. Qed.
Lemma argv_space cur bs rest : begun cur bs -> argv (SPC :: rest) bs false cur = val cur bs :: argv rest 0 false None.
Proof.
  intro G. cbn [argv]. change (Ascii.eqb SPC BSL) with false. change (Ascii.eqb SPC QUOTE) with false. change (Ascii.eqb SPC SPC) with true. cbn [orb andb negb]. cbv iota.
  unfold more, val. rewrite app_nil_r. destruct cur, bs; auto. destruct G; congruence.
Qed.
Lemma has_in c l : has c l = true <-> In c l.
Proof.
  unfold has. rewrite existsb_exists. split.
  - intros (x & I & E). apply Ascii.eqb_eq in E. subst. exact I.
  - intro I. exists c. split; auto. apply Ascii.eqb_refl.
Qed.
Lemma odd_double k : Nat.odd (k + k) = false /\ Nat.div2 (k + k) = k.
Proof. split; [rewrite Nat.odd_add; destruct (Nat.odd k); reflexivity|]. replace (k + k) with (2 * k) by lia. apply Nat.div2_double. Qed.
(** One argument, quoted or not *)
Definition quote_it (a : bytes) : bytes := if has SPC a then QUOTE :: a ++ repeat BSL (trailing (rev a)) ++ [QUOTE] else a.
Lemma append_ok s a : ~ In QUOTE a -> append_quoted s a = Some (s ++ quote_it a).
Proof.
  intro Q. unfold append_quoted, quote_it. cbv zeta.
  replace (has QUOTE a) with false by (symmetry; apply Bool.not_true_iff_false; intro X; apply has_in in X; auto). cbn [andb]. rewrite andb_false_r.
  destruct (has SPC a); reflexivity.
Qed.
Lemma argv_quoted a : a <> [] -> ~ In QUOTE a -> ~ In TAB a ->
  exists cur bs, begun cur bs /\ val cur bs = a /\
    forall rest, (rest = [] \/ exists r, rest = SPC :: r) -> argv (quote_it a ++ rest) 0 false None = argv rest bs false cur.
Proof.
  intros N Q T. unfold quote_it. destruct (has SPC a) eqn:H.
  - destruct (argv_text true a 0 (Some []) Q (or_introl eq_refl)) as (cur & E & V & G). cbn [repeat app] in *. set (k := trailing (rev a)) in *.
    exists (more cur k []), 0. split; [left; discriminate|]. split; [unfold more, val; rewrite !app_nil_r; exact V|]. intros rest R.
    rewrite <- app_assoc. change (argv (QUOTE :: ?x) 0 false None) with (argv (QUOTE :: x) 0 false None). cbn [app].
    assert (A1 : argv (QUOTE :: a ++ (repeat BSL k ++ [QUOTE]) ++ rest) 0 false None = argv (a ++ (repeat BSL k ++ [QUOTE]) ++ rest) 0 true (Some [])).
    { cbn [argv]. change (Ascii.eqb QUOTE BSL) with false. change (Ascii.eqb QUOTE QUOTE) with true. cbv iota. cbn [Nat.odd Nat.even negb andb Nat.div2].
      destruct (a ++ (repeat BSL k ++ [QUOTE]) ++ rest); reflexivity. }
    rewrite A1, E. clear A1 E. rewrite <- app_assoc.
    destruct (argv_text true (repeat BSL k) k cur) as (cur2 & E2 & V2 & _).
    { intro X. apply repeat_spec in X. discriminate. }
    { auto. }
    rewrite <- repeat_app, rev_repeat, trailing_all in *. rewrite E2. cbn [app]. destruct (odd_double k) as [O1 O2].
    assert (M : more cur2 (Nat.div2 (k + k)) [] = more cur k []).
    { rewrite O2. unfold more. do 2 f_equal. unfold val in V2. rewrite repeat_app in V2. rewrite !app_assoc in V2. do 2 apply app_inv_tail in V2. exact V2. }
    cbn [argv]. change (Ascii.eqb QUOTE BSL) with false. change (Ascii.eqb QUOTE QUOTE) with true. cbv iota. rewrite O1, M. cbn [negb].
    destruct R as [->|(r & ->)]; [reflexivity|]. reflexivity.
  - destruct (argv_text false a 0 None Q) as (cur & E & V & G).
    { right. split; auto. intro X. apply has_in in X. congruence. }
    cbn [repeat app] in *. exists cur, (trailing (rev a)). split; [apply G; auto|]. split; [exact V|]. intros rest _. apply E.
Qed.
Lemma collect_ok : forall l s, Forall (fun a => ~ In QUOTE a) l ->
  collect_args s l = Some (s ++ match l with [] => [] | a :: r => quote_it a ++ flat_map (fun b => SPC :: quote_it b) r end).
Proof.
  induction l as [|a l IH]; intros s F; cbn [collect_args].
  - rewrite app_nil_r. reflexivity.
  - rewrite (append_ok s a (Forall_inv F)). rewrite (IH _ (Forall_inv_tail F)). destruct l as [|b l]; cbn [flat_map]; [rewrite !app_nil_r; reflexivity|].
    rewrite <- !app_assoc. reflexivity.
Qed.
(** C69: the arguments given for clink are what the command installed passes to it. *)
Theorem args_survive l : Forall (fun a => a <> [] /\ ~ In QUOTE a /\ ~ In TAB a) l -> exists s, collect_args [] l = Some s /\ arguments s = l.
Proof.
  intro F. eexists. split; [apply collect_ok; eapply Forall_impl; [|exact F]; intros a (_ & X & _); exact X|]. cbn [app]. unfold arguments.
  induction l as [|a l IH]; [reflexivity|]. destruct (Forall_inv F) as (F1 & F2 & F3). destruct (argv_quoted a F1 F2 F3) as (cur & bs & G & V & E).
  destruct l as [|b l].
  - cbn [flat_map]. rewrite app_nil_r. specialize (E [] (or_introl eq_refl)). rewrite app_nil_r in E. rewrite E, argv_end, V by auto. reflexivity.
  - cbn [flat_map app]. rewrite E by eauto. rewrite argv_space, V by auto. f_equal. apply IH. exact (Forall_inv_tail F).
Qed.

(** ** Refuted *)
Definition no_path (a b : bytes) : bool := false.
(** Uninstalling an entry without quotes removes another program's command. *)
Theorem unquoted_refuted :
  uninstall no_path false [] (Some (lit "title x&clink inject --autorun")) = None /\
  uninstall no_path false [] (Some (lit """a"" x&title y&clink inject --autorun")) = None.
Proof. split; vm_compute; reflexivity. Qed.
(** A value that ends with "&" loses it. *)
Theorem last_amp_refuted : uninstall no_path false (lit "C:\c") (install no_path (lit "C:\c") [] (Some (lit "title x&"))) = Some (lit "title x").
Proof. vm_compute. reflexivity. Qed.
(** Arguments with "&" are not removed. *)
Theorem amp_args_refuted : uninstall no_path false (lit "C:\c") (install no_path (lit "C:\c") (lit "-p ""a&b""") None) = Some (lit "b""").
Proof. vm_compute. reflexivity. Qed.
(** Long arguments are cut off. *)
Theorem long_args_refuted : exists args v, collect_args [] [args] = Some args /\ install no_path (lit "C:\c") args None = Some v /\
  Nat.ltb (length v) (length args) = true.
Proof. exists (repeat "a"%char 2100). eexists. split; [vm_compute; reflexivity|]. split; [vm_compute; reflexivity|]. vm_compute. reflexivity. Qed.
(** Empty arguments vanish, and those with a tab are taken apart. *)
Theorem odd_args_refuted : option_map arguments (collect_args [] [lit "a"; []; lit "b"]) = Some [lit "a"; lit "b"] /\
  option_map arguments (collect_args [] [lit "a" ++ TAB :: lit "b"]) = Some [lit "a"; lit "b"].
Proof. split; vm_compute; reflexivity. Qed.

(** ** Examples *)
Example uninstall_ex : uninstall no_path false [] (Some (lit "title x&&""C:\Program Files\clink\clink.bat"" inject --autorun&cls")) = Some (lit "title x&cls").
Proof. vm_compute. reflexivity. Qed.
Example uninstall_ex_hyps : let e := lit """C:\Program Files\clink\clink.bat"" inject --autorun" in
  Forall command ([lit "title x"; []] ++ e :: [lit "cls"]) /\ quoted_entry e /\ Forall (fun c => ~ starts_clink c) ([lit "title x"; []] ++ [lit "cls"]) /\
  without_empty [lit "title x"; []] [lit "title x"].
Proof.
  assert (CM : forall c, existsb (Ascii.eqb "&") c = false -> command c).
  { intros c H X. apply Bool.not_true_iff_false in H. apply H. apply existsb_exists. exists "&"%char. split; auto. }
  cbv zeta. split; [|split; [|split]].
  - cbn [app]. apply Forall_cons; [apply CM; reflexivity|]. apply Forall_cons; [apply CM; reflexivity|]. apply Forall_cons; [apply CM; reflexivity|].
    apply Forall_cons; [apply CM; reflexivity|apply Forall_nil].
  - exact (new_entry_quoted (lit "C:\Program Files\clink") []).
  - assert (NS : forall c, find_tag needles c = None -> ~ starts_clink c).
    { intros c H (n & I & O). exact (find_tag_none _ _ H n I O). }
    cbn [app]. apply Forall_cons; [apply NS; vm_compute; reflexivity|]. apply Forall_cons; [apply NS; vm_compute; reflexivity|]. apply Forall_cons; [apply NS; vm_compute; reflexivity|apply Forall_nil].
  - left. reflexivity.
Qed.
Example install_ex : install no_path (lit "C:\c") (lit "-q") (Some (lit """C:\old\clink_x64.exe"" inject&title x")) = Some (lit "title x&""C:\c\clink.bat"" inject --autorun -q").
Proof. vm_compute. reflexivity. Qed.
Example args_ex : collect_args [] [lit "--profile"; lit "C:\my dir\"; lit "-q"] = Some (lit "--profile ""C:\my dir\\"" -q") /\
  arguments (lit "--profile ""C:\my dir\\"" -q") = [lit "--profile"; lit "C:\my dir\"; lit "-q"].
Proof. split; vm_compute; reflexivity. Qed.

Print Assumptions uninstall_removes.
Print Assumptions uninstall_nothing.
Print Assumptions unquoted_loses.
Print Assumptions only_this_program.
Print Assumptions install_appends.
Print Assumptions install_replaces.
Print Assumptions install_uninstall.
Print Assumptions args_survive.
Print Assumptions unquoted_refuted.
Print Assumptions last_amp_refuted.
Print Assumptions amp_args_refuted.
Print Assumptions long_args_refuted.
Print Assumptions odd_args_refuted.
