(** C53: the directory shortcuts. *)
From Verif Require Import Base CmpModel CmpSpec PathModel NormProofs CdModel CdSpec CdProofs.
Local Open Scope N_scope.

Lemma sepc_iff c : is_separator c = true <-> sepc c.
Proof. unfold is_separator, sepc. lia. Qed.
Lemma count_dots_iff t n : count_dots t = Some n <-> dots t n.
Proof.
  split.
  - revert n. induction t as [|c t IH]; intros n H; cbn [count_dots] in H; [injection H as <-; apply (dots_bare 0)|].
    destruct (N.eqb_spec c 46) as [->|NE].
    + destruct (count_dots t) as [k|]; [|discriminate]. injection H as <-. destruct (IH k eq_refl) as [k|k s SS]; [apply (dots_bare (S k))|apply (dots_sep (S k) s SS)].
    + destruct (is_separator c) eqn:S; [|discriminate]. destruct t; [|discriminate]. injection H as <-. apply (dots_sep 0 c). apply sepc_iff. exact S.
  - intros [k|k s S].
    + induction k as [|k IH]; [reflexivity|]. cbn [repeat count_dots]. change (46 =? 46) with true. rewrite IH. reflexivity.
    + induction k as [|k IH]; cbn [repeat app count_dots].
      * replace (s =? 46) with false by (unfold sepc in S; lia). rewrite (proj2 (sepc_iff s) S). reflexivity.
      * change (46 =? 46) with true. rewrite IH. reflexivity.
Qed.
Lemma only_ups_iff : forall fuel t, (length t <= fuel)%nat -> only_ups fuel t = true <-> ups_text t.
Proof.
  induction fuel as [|fuel IH]; intros t H.
  - destruct t; [|cbn [length] in H; lia]. split; [discriminate|]. intro U. inversion U.
  - cbn [only_ups]. destruct t as [|a [|b r]]; try (split; [discriminate|intro U; inversion U]). split.
    + intro E. apply andb_true_iff in E as [E1 E2]. apply andb_true_iff in E1 as [Ea Eb]. apply N.eqb_eq in Ea, Eb. subst a b. destruct r as [|c r]; [apply up_one|].
      apply andb_true_iff in E2 as [E2 E3]. apply up_more; [apply sepc_iff; exact E2|]. apply IH; [cbn [length] in H; lia|exact E3].
    + intro U. inversion U as [|s t S U' E]; [reflexivity|]. subst. change (46 =? 46) with true. cbn [andb]. rewrite (proj2 (sepc_iff s) S). cbn [andb]. apply IH; [cbn [length] in H; lia|exact U'].
Qed.
Lemma ups_last t : ups_text t -> exists t0, t = t0 ++ [46].
Proof.
  induction 1 as [|s t S U (t0 & ->)]; [exists [46]; reflexivity|]. exists (46 :: 46 :: s :: t0). reflexivity.
Qed.
Definition endedb (t : text) : option text :=
  if negb (eqt t (tx "~")) && negb (is_separator (last t 0)) then if only_ups (length t) t then Some (t ++ tx "\") else None else Some t.
Lemma endedb_iff t t' : t <> [] -> endedb t = Some t' <-> ended t t'.
Proof.
  intro NE. unfold endedb. destruct (exists_last NE) as (t0 & s & ->). rewrite last_last. destruct (eqt (t0 ++ [s]) (tx "~")) eqn:Q; cbn [negb andb].
  - apply eqt_iff in Q. change (tx "~") with ([] ++ [126]) in Q. apply app_inj_tail in Q as [-> ->]. cbn [app]. split.
    + intro H. injection H as <-. apply e_home.
    + intro U. inversion U as [|t s S E|t U' E]; subst; [reflexivity| |].
      * reflexivity.
      * inversion U'.
  - destruct (is_separator s) eqn:S; cbn [negb].
    + apply sepc_iff in S. split; [intro H; injection H as <-; apply e_sep; exact S|]. intro U. inversion U as [E|t s2 S2 E|t U' E]; subst; try reflexivity.
      exfalso. apply ups_last in U' as (t1 & U'). apply app_inj_tail in U' as [_ ->]. unfold sepc in S. lia.
    + split.
      * destruct (only_ups _ _) eqn:O; [|discriminate]. intro H. injection H as <-. apply e_ups. apply (only_ups_iff (length (t0 ++ [s]))); [lia|exact O].
      * intro U. inversion U as [E|t s2 S2 E|t U' E]; subst.
        -- rewrite <- E in Q. discriminate.
        -- apply app_inj_tail in E as [_ ->]. apply sepc_iff in S2. congruence.
        -- rewrite (proj2 (only_ups_iff (length (t0 ++ [s])) _ (Nat.le_refl _)) U'). reflexivity.
Qed.
Lemma letter_iff c : (97 <=? lowerN c) && (lowerN c <=? 122) = true <-> letter c.
Proof. unfold lowerN, letter. destruct ((65 <=? c) && (c <=? 90)) eqn:E; lia. Qed.
Lemma skip_sep_spec l : exists s, Forall sepc s /\ l = s ++ skip_sep l.
Proof.
  induction l as [|c l (s & S & E)]; [exists []; auto|]. cbn [skip_sep]. destruct (is_separator c) eqn:C.
  - exists (c :: s). split; [apply Forall_cons; [apply sepc_iff; exact C|exact S]|cbn [app]; f_equal; exact E].
  - exists []. auto.
Qed.
Lemma skip_sep_letter s c r : Forall sepc s -> letter c -> skip_sep (s ++ c :: r) = c :: r.
Proof.
  intros S L. induction S as [|x s X S IH]; cbn [app skip_sep].
  - replace (is_separator c) with false; [reflexivity|]. unfold is_separator, letter in *. lia.
  - rewrite (proj2 (sepc_iff x) X). exact IH.
Qed.
Lemma get_drive_iff p d : get_drive p = Some d <-> exists c, d = [c; 58] /\ on_drive p c.
Proof.
  unfold get_drive. split.
  - destruct (past_ssqs p) as [|c [|x r]] eqn:P; try discriminate. destruct (N.eqb_spec x 58) as [->|]; [|discriminate]. cbn [andb].
    destruct ((97 <=? lowerN c) && (lowerN c <=? 122)) eqn:L; [|discriminate]. apply letter_iff in L. intro H. injection H as <-. exists c. split; [reflexivity|].
    unfold past_ssqs in P. destruct (sep_at p 0) eqn:S0; cbn [negb] in P; [|subst p; apply od_plain; exact L].
    destruct (sep_at p 1) eqn:S1; cbn [negb] in P; [|subst p; apply od_plain; exact L].
    destruct (at_ p 2 =? 63) eqn:S2; cbn [negb] in P; [|subst p; apply od_plain; exact L].
    destruct (sep_at p 3) eqn:S3; cbn [negb] in P; [|subst p; apply od_plain; exact L].
    destruct p as [|p0 [|p1 [|p2 [|p3 p]]]]; try discriminate. unfold sep_at, at_ in *. cbn [nth] in *. cbn [skipn] in P. apply N.eqb_eq in S2. subst p2.
    destruct (skip_sep_spec p) as (s & S & E). rewrite P in E. rewrite E. apply od_long; try (apply sepc_iff; assumption); assumption.
  - intros (c & -> & [c' r L|s1 s2 s3 s c' r A B C S L]).
    + assert (X : past_ssqs (c' :: 58 :: r) = c' :: 58 :: r). { unfold past_ssqs, sep_at, at_. cbn [nth]. replace (is_separator c') with false by (unfold is_separator, letter in *; lia). reflexivity. }
      rewrite X. change (58 =? 58) with true. cbn [andb]. rewrite (proj2 (letter_iff c') L). reflexivity.
    + assert (X : past_ssqs (s1 :: s2 :: 63 :: s3 :: s ++ c' :: 58 :: r) = c' :: 58 :: r).
      { unfold past_ssqs, sep_at, at_. cbn [nth skipn]. rewrite (proj2 (sepc_iff _) A), (proj2 (sepc_iff _) B), (proj2 (sepc_iff _) C). change (63 =? 63) with true. cbn [negb]. apply skip_sep_letter; assumption. }
      rewrite X. change (58 =? 58) with true. cbn [andb]. rewrite (proj2 (letter_iff c') L). reflexivity.
Qed.
Lemma on_drive_fun p c d : on_drive p c -> on_drive p d -> c = d.
Proof.
  intros A B. assert (X : get_drive p = Some [c; 58]) by (apply get_drive_iff; eauto). assert (Y : get_drive p = Some [d; 58]) by (apply get_drive_iff; eauto). congruence.
Qed.
Lemma cd_command_iff cwd dir out : make_cd_command cwd dir = out <-> cd_command cwd dir out.
Proof.
  assert (F : forall o, cd_command cwd dir o -> make_cd_command cwd dir = o).
  { intros o [H|c H N]; unfold make_cd_command.
    - destruct (get_drive dir) as [d|] eqn:G; [|reflexivity]. apply get_drive_iff in G as (c & -> & D). destruct (H c D) as (c' & D' & L).
      assert (G' : get_drive cwd = Some [c'; 58]) by (apply get_drive_iff; eauto). rewrite G'.
      replace (iequals [c; 58] [c'; 58]) with true; [reflexivity|]. symmetry. apply iequals_iff. unfold same_letters. cbn [map]. congruence.
    - assert (G : get_drive dir = Some [c; 58]) by (apply get_drive_iff; eauto). rewrite G. destruct (get_drive cwd) as [d|] eqn:G2.
      + apply get_drive_iff in G2 as (c' & -> & D'). destruct (iequals [c; 58] [c'; 58]) eqn:I; [|reflexivity]. apply iequals_iff in I. unfold same_letters in I. cbn [map] in I. injection I as I.
        exfalso. apply (N c' D'). congruence.
      + destruct (iequals [c; 58] []) eqn:I; [|reflexivity]. apply iequals_iff in I. discriminate. }
  split; [|apply F]. intros <-. assert (E : exists o, cd_command cwd dir o).
  { destruct (get_drive dir) as [d|] eqn:G.
    - apply get_drive_iff in G as (c & -> & D). destruct (get_drive cwd) as [d|] eqn:G2.
      + apply get_drive_iff in G2 as (c' & -> & D'). destruct (N.eq_dec (lowerN c') (lowerN c)) as [L|L].
        * eexists. apply cc_same. intros x X. rewrite (on_drive_fun dir x c X D). eauto.
        * eexists. apply (cc_drive cwd dir c D). intros x X. rewrite (on_drive_fun cwd x c' X D'). exact L.
      + eexists. apply (cc_drive cwd dir c D). intros x X. exfalso. assert (get_drive cwd = Some [x; 58]) by (apply get_drive_iff; eauto). congruence.
    - eexists. apply cc_same. intros x X. exfalso. assert (get_drive dir = Some [x; 58]) by (apply get_drive_iff; eauto). congruence. }
  destruct E as (o & E). rewrite (F o E). exact E.
Qed.
Lemma up_ups n : ups n = up n.
Proof. induction n as [|n IH]; [reflexivity|]. cbn [up]. rewrite <- IH. reflexivity. Qed.
Lemma up_norm n : normalise_separators (up n) 92 = up n.
Proof. induction n as [|n IH]; [reflexivity|]. cbn [up]. unfold normalise_separators in *. cbn [map]. rewrite IH. reflexivity. Qed.
Lemma up_last n : exists t, up (S n) = t ++ [92].
Proof. induction n as [|n (t & E)]; [exists [46; 46]; reflexivity|]. exists (46 :: 46 :: 92 :: t). change (up (S (S n))) with (46 :: 46 :: 92 :: up (S n)). rewrite E. reflexivity. Qed.

Section Thm.
Variable env : text -> option text.
Variable alias : text -> bool.
Variable walpha : N -> bool.
Variable before : N.
Variable is_dir remote : text -> bool.
Variable cwd : text.
Variable no_remote_cwd : bool.
Notation intercept := (intercept_directory env alias walpha before is_dir remote cwd no_remote_cwd).
Notation answered := (answer env alias walpha before is_dir remote cwd no_remote_cwd).

Lemma tilde_iff t d : tilde_expand env walpha before t = Some d <-> at_home env walpha before t d.
Proof.
  unfold tilde_expand. fold (home env). destruct t as [|c r].
  - split; [intro H; injection H as <-; apply h_no; intros r [E _]; discriminate|]. intro A. inversion A as [t NT E|t r d' [E _]]; subst; [reflexivity|discriminate].
  - destruct ((c =? 126) && match r with [] => true | d :: _ => is_separator d end) eqn:T.
    + apply andb_true_iff in T as [T1 T2]. apply N.eqb_eq in T1. subst c. assert (TT : tilde (126 :: r) r). { split; [reflexivity|]. destruct r; [exact Logic.I|apply sepc_iff; exact T2]. }
      split; [intro H; apply (h_yes env walpha before _ r d TT H)|]. intro A. inversion A as [t NT E|t r2 d' [E _] NN]; subst; [destruct (NT r TT)|]. injection E as <-. exact NN.
    + assert (NT : forall r2, ~ tilde (c :: r) r2). { intros r2 [E M]. injection E as -> <-. change (126 =? 126) with true in T. cbn [andb] in T. destruct r; [discriminate|]. apply sepc_iff in M. congruence. }
      split; [intro H; injection H as <-; apply h_no; exact NT|]. intro A. inversion A as [t NT2 E|t r2 d' TT]; subst; [reflexivity|destruct (NT r2 TT)].
Qed.
Lemma passed_iff m d : (match m with no_remote => remote d && ((match past_ssqs d with _ :: x :: _ => x =? 58 | _ => false end) || no_remote_cwd) | _ => false end) = true <->
  passed_over remote no_remote_cwd m d.
Proof.
  unfold passed_over. destruct m; try (split; [discriminate|intros (E & _); discriminate]). rewrite andb_true_iff, orb_true_iff. split.
  - intros (R & [P|P]); (split; [reflexivity|]; split; [exact R|]); [right|left; exact P]. destruct (past_ssqs d) as [|a [|x r]]; try discriminate. apply N.eqb_eq in P. subst. eauto.
  - intros (_ & R & [P|(a & r & P)]); (split; [exact R|]); [right; exact P|left; rewrite P; reflexivity].
Qed.

(** C53: whatever the recogniser answers is what is asked for, and it answers whenever something is. *)
Theorem shortcut_exact line m r : intercept line m = Some r ->
  (r = none /\ forall x, ~ answered line m x) \/ (r <> none /\ answered line m r /\ forall x, answered line m x -> x = r).
Proof.
  unfold intercept_directory. fold (only m). pose proof (dash_ok env alias (only m) line) as DO. destruct (is_cd_dash alias (only m) line).
  { intro H. injection H as <-. right. split; [discriminate|]. pose proof (proj1 DO eq_refl) as D. split; [apply a_dash; exact D|].
    intros x [D'|t n cmd ND|t t' d cmd ND]; [reflexivity|contradiction|contradiction]. }
  assert (ND : ~ dash alias (only m) line) by (intro D; apply DO in D; discriminate).
  destruct (only m) eqn:OM.
  { destruct m; try discriminate. intro H. injection H as <-. left. split; [reflexivity|]. intros x [D'|t n cmd _ NM|t t' d cmd _ NM]; [rewrite <- OM in ND; contradiction|congruence|congruence]. }
  assert (NM : m <> only_cd_chdir) by (intros ->; discriminate). rewrite <- OM in ND.
  match goal with |- (match m with normal => ?a | only_cd_chdir => _ | no_remote => _ end) = _ -> _ => idtac end.
  destruct (parse_ok env line) as (tk & P & HO). rewrite P.
  assert (NOT : (forall t, ~ holds env line t) -> forall x, ~ answered line m x).
  { intros N x [D|t n cmd _ _ H|t t' d cmd _ _ H]; [contradiction|exact (N t H)|exact (N t H)]. }
  set (skip := fun t => match m with no_remote => remote t && ((match past_ssqs t with _ :: d :: _ => d =? 58 | _ => false end) || no_remote_cwd) | _ => false end).
  intro H. assert (H' : match tk with
    | None => Some none
    | Some t =>
        let dots := match count_dots t with Some n => (2 <=? n)%nat | None => false end in
        let t := if dots then match count_dots t with Some n => ups (n - 1) | None => t end else t in
        match endedb t with
        | None => Some none
        | Some t => match tilde_expand env walpha before t with
                    | None => None
                    | Some t => if negb dots && (skip t || negb (is_dir t)) then Some none else Some (chdir (make_cd_command cwd (normalise_separators t 92)))
                    end
        end
    end = Some r) by (destruct m; [exact H|congruence|exact H]). clear H P. rename H' into H. destruct tk as [t|].
  2: { injection H as <-. left. split; [reflexivity|]. apply NOT. intros t T. apply HO in T. discriminate. }
  pose proof (proj1 (HO t) eq_refl) as HT. assert (UT : forall t', holds env line t' -> t' = t) by (intros t' T; apply HO in T; congruence).
  assert (TN : t <> []) by (destruct HT as (l & _ & _ & _ & N); exact N). cbv zeta in H.
  destruct (match count_dots t with Some n => (2 <=? n)%nat | None => false end) eqn:DT.
  - destruct (count_dots t) as [n|] eqn:CD; [|discriminate]. apply Nat.leb_le in DT. pose proof (proj1 (count_dots_iff t n) CD) as DD. destruct n as [|[|k]]; try lia. cbn [Nat.sub] in H. rewrite up_ups in H.
    destruct (up_last k) as (u & EU). assert (ED : endedb (up (S k)) = Some (up (S k))). { apply endedb_iff; [discriminate|]. rewrite EU. apply e_sep. right. reflexivity. }
    rewrite ED in H. assert (TE : tilde_expand env walpha before (up (S k)) = Some (up (S k))) by reflexivity. rewrite TE in H. cbn [negb andb] in H. injection H as <-. rewrite up_norm. right.
    split; [discriminate|]. split.
    + apply (a_dots env alias walpha before is_dir remote cwd no_remote_cwd line m t (S (S k))); auto. cbn [Nat.sub]. apply cd_command_iff. reflexivity.
    + intros x [D|t2 n2 cmd _ _ T2 D2 N2 CC|t2 t' d cmd _ _ T2 D2]; [contradiction| |].
      * rewrite (UT t2 T2) in D2. apply count_dots_iff in D2. rewrite CD in D2. injection D2 as <-. change (S (S k) - 1)%nat with (S k) in CC. apply cd_command_iff in CC. f_equal. symmetry. exact CC.
      * rewrite (UT t2 T2) in D2. specialize (D2 _ DD). lia.
  - assert (NDT : forall n, dots t n -> (n < 2)%nat). { intros n D. apply count_dots_iff in D. rewrite D in DT. apply Nat.leb_gt in DT. exact DT. }
    assert (LOST : forall cmd, ~ (exists t' d, ended t t' /\ at_home env walpha before t' d /\ ~ passed_over remote no_remote_cwd m d /\ is_dir d = true /\ cd_command cwd (backslashes d) cmd) -> ~ answered line m (chdir cmd)).
    { intros cmd N A. inversion A as [|t2 n2 c2 _ _ T2 D2 N2 CC|t2 t' d c2 _ _ T2 D2 E2 A2 P2 I2 CC]; subst.
      - rewrite (UT t2 T2) in D2. specialize (NDT _ D2). lia.
      - rewrite (UT t2 T2) in E2. apply N. eauto 8. }
    assert (ALL : forall x, answered line m x -> exists cmd, x = chdir cmd). { intros x [D|t2 n2 c2|t2 t' d c2]; [contradiction|eauto|eauto]. }
    destruct (endedb t) as [t'|] eqn:ET.
    2: { injection H as <-. left. split; [reflexivity|]. intros x A. destruct (ALL x A) as (cmd & ->). apply (LOST cmd) in A; [exact A|]. intros (t' & d & E & _). apply (endedb_iff t t' TN) in E. congruence. }
    pose proof (proj1 (endedb_iff t t' TN) ET) as EE.
    destruct (tilde_expand env walpha before t') as [d|] eqn:TE; [|discriminate]. pose proof (proj1 (tilde_iff t' d) TE) as AH. cbn [negb andb] in H.
    pose proof (passed_iff m d) as PI. fold (skip d) in PI.
    assert (UD : forall t2 d2, ended t t2 -> at_home env walpha before t2 d2 -> d2 = d).
    { intros t2 d2 E2 A2. apply (endedb_iff t t2 TN) in E2. rewrite ET in E2. injection E2 as <-. apply tilde_iff in A2. congruence. }
    destruct (skip d) eqn:SK; cbn [orb] in H.
    { injection H as <-. left. split; [reflexivity|]. intros x A. destruct (ALL x A) as (cmd & ->). apply (LOST cmd) in A; [exact A|]. intros (t2 & d2 & E2 & A2 & P2 & _). rewrite (UD t2 d2 E2 A2) in P2. apply P2, PI. reflexivity. }
    destruct (is_dir d) eqn:ID; cbn [negb] in H; injection H as <-.
    + right. split; [discriminate|]. assert (NP : ~ passed_over remote no_remote_cwd m d) by (intro PO; apply PI in PO; discriminate). split.
      * apply (a_dir env alias walpha before is_dir remote cwd no_remote_cwd line m t t' d); auto. apply cd_command_iff. reflexivity.
      * intros x A. destruct (ALL x A) as (cmd & ->). inversion A as [|t2 n2 c2 _ _ T2 D2 N2 CC|t2 t3 d2 c2 _ _ T2 D2 E2 A2 P2 I2 CC]; subst.
        -- rewrite (UT t2 T2) in D2. specialize (NDT _ D2). lia.
        -- rewrite (UT t2 T2) in E2. rewrite (UD t3 d2 E2 A2) in CC. apply cd_command_iff in CC. f_equal. symmetry. exact CC.
    + left. split; [reflexivity|]. intros x A. destruct (ALL x A) as (cmd & ->). apply (LOST cmd) in A; [exact A|]. intros (t2 & d2 & E2 & A2 & _ & I2 & _). rewrite (UD t2 d2 E2 A2) in I2. congruence.
Qed.

(** C53: an answer is always found for texts without NUL that are shorter than 2 GB. *)
Definition no_nul (t : text) : Prop := Forall (fun c => c <> 0) t.
Lemma expanded_no_nul t o : (forall n v, env n = Some v -> no_nul v) -> expanded env t o -> no_nul t -> no_nul o.
Proof.
  intro EN. unfold no_nul. induction 1 as [|c l o NC X IH|n v l o NN NP EV X IH|n l o NN NP EV X IH|l o X IH|l NL]; intro F; auto.
  - apply Forall_cons; [exact (Forall_inv F)|exact (IH (Forall_inv_tail F))].
  - apply Forall_inv_tail, Forall_app in F as [_ F]. apply Forall_app. split; [exact (EN n v EV)|]. exact (IH (Forall_inv_tail F)).
  - pose proof (Forall_inv F) as F0. apply Forall_inv_tail, Forall_app in F as [F1 F]. apply Forall_cons; [exact F0|]. apply Forall_app. split; [exact F1|]. apply Forall_cons; [exact F0|]. exact (IH (Forall_inv_tail F)).
  - apply Forall_cons; [exact (Forall_inv F)|]. exact (IH (Forall_inv_tail F)).
Qed.
Lemma holds_no_nul line t : (forall n v, env n = Some v -> no_nul v) -> no_nul line -> holds env line t -> no_nul t.
Proof.
  intros EN L (l & (b & _ & E & _) & _ & X & _). apply (expanded_no_nul (word l) t EN X). unfold no_nul in *. rewrite Forall_forall in *. intros c C. apply L. rewrite E. apply in_or_app. right.
  unfold word in C. apply in_map_iff in C as ((p & c') & C & F). cbn [snd] in C. subst c'. apply filter_In in F as [F _]. apply in_combine_r in F. exact F.
Qed.
Lemma skip_sep_sub l : (length (skip_sep l) <= length l)%nat /\ (no_nul l -> no_nul (skip_sep l)).
Proof.
  destruct (skip_sep_spec l) as (s & _ & E). split; [rewrite E at 2; rewrite app_length; lia|]. intro F. rewrite E in F. apply Forall_app in F as [_ F]. exact F.
Qed.
Lemma append_sub a b : (length (append walpha a b) <= length a + 1 + length b)%nat /\ (no_nul a -> no_nul b -> no_nul (append walpha a b)).
Proof.
  unfold append. destruct (is_rooted walpha b); [split; [lia|auto]|]. cbv zeta. match goal with |- context [if ?x then [92] else []] => destruct x end.
  - split; [rewrite !app_length; cbn [length]; lia|]. intros A B. apply Forall_app. split; [exact A|]. apply Forall_cons; [discriminate|exact B].
  - split; [rewrite !app_length; cbn [length]; lia|]. intros A B. apply Forall_app. split; [exact A|exact B].
Qed.
Lemma endedb_sub t t2 : endedb t = Some t2 -> (length t2 <= length t + 1)%nat /\ (no_nul t -> no_nul t2).
Proof.
  unfold endedb. destruct (_ && _); [destruct (only_ups _ _); [|discriminate]|]; intro H; injection H as <-.
  - split; [rewrite app_length; cbn [length tx]; change (length (tx "\")) with 1%nat; lia|]. intro F. apply Forall_app. split; [exact F|apply Forall_cons; [discriminate|apply Forall_nil]].
  - split; [lia|auto].
Qed.
Theorem shortcut_defined line m : (forall n v, env n = Some v -> no_nul v) -> no_nul line ->
  (forall t, holds env line t -> N.of_nat (length (home env) + length t) < 2147483640) -> exists r, intercept line m = Some r.
Proof.
  intros EN L LEN. unfold intercept_directory. destruct (is_cd_dash _ _ _); [eauto|].
  assert (TD : forall t, no_nul t -> N.of_nat (length (home env) + length t) < 2147483644 -> exists d, tilde_expand env walpha before t = Some d).
  { intros t NT LT. unfold tilde_expand. fold (home env). destruct t as [|c r]; [eauto|]. destruct ((c =? 126) && _); [|eauto].
    destruct (skip_sep_sub r) as [S1 S2]. destruct (append_sub (home env) (skip_sep r)) as [A1 A2]. cbn [length] in LT.
    destruct (normalise_ok walpha before (append walpha (home env) (skip_sep r)) 92) as (pre & es & _ & _ & _ & N & _).
    - right. reflexivity.
    - apply A2; [|apply S2; exact (Forall_inv_tail NT)]. unfold home. destruct (env (tx "HOME")) as [h|] eqn:H; [exact (EN _ _ H)|apply Forall_nil].
    - lia.
    - rewrite N. eauto. }
  destruct (parse_ok env line) as (tk & P & HO). rewrite P. destruct m; [| eauto |]; (destruct tk as [t|]; [|eauto]).
  all: pose proof (proj1 (HO t) eq_refl) as HT; pose proof (holds_no_nul line t EN L HT) as NT; pose proof (LEN t HT) as LT; cbv zeta.
  all: set (dt := match count_dots t with Some n => (2 <=? n)%nat | None => false end) in *.
  all: set (t1 := if dt then match count_dots t with Some n => ups (n - 1) | None => t end else t).
  all: assert (T1 : endedb t1 = None \/ exists t2 d, endedb t1 = Some t2 /\ tilde_expand env walpha before t2 = Some d).
  1, 3: destruct (endedb t1) as [t2|] eqn:ET; [right|left; reflexivity]; exists t2; destruct dt eqn:DT.
  1, 3: unfold t1 in ET; destruct (count_dots t) as [n|]; [|discriminate]; apply Nat.leb_le in DT; destruct n as [|[|k]]; try lia; cbn [Nat.sub] in ET; rewrite up_ups in ET;
    assert (E2 : endedb (up (S k)) = Some (up (S k))) by (destruct (up_last k) as (u & EU); apply endedb_iff; [discriminate|]; rewrite EU; apply e_sep; right; reflexivity);
    rewrite E2 in ET; injection ET as <-; exists (up (S k)); split; reflexivity.
  1, 2: unfold t1 in ET; destruct (endedb_sub t t2 ET) as [TT1 TT2]; clearbody dt; clear t1; destruct (TD t2 (TT2 NT) ltac:(clear - LT TT1; lia)) as (d & E); exists d; auto.
  all: match goal with |- exists r, match ?x with _ => _ end = _ => change x with (endedb t1) end; destruct T1 as [T1|(t2 & d & T1 & T2)]; rewrite T1; [eauto|]; rewrite T2; match goal with |- exists r, (if ?b then _ else _) = _ => destruct b end; eauto.
Qed.

(** C53: no directory holds a quote, so a command never holds more than the two quotes around the directory. *)
Theorem shortcut_quoted line m cmd : (forall d, is_dir d = true -> ~ In 34 d) -> intercept line m = Some (chdir cmd) ->
  exists pre d, cmd = pre ++ quoted d /\ ~ In 34 d /\ (pre = tx " cd " \/ exists c, letter c /\ pre = 32 :: c :: tx ": & cd ").
Proof.
  intros Q H. destruct (shortcut_exact line m _ H) as [[E _]|(_ & A & _)]; [discriminate|].
  assert (G : forall d, ~ In 34 d -> cd_command cwd d cmd -> exists pre d, cmd = pre ++ quoted d /\ ~ In 34 d /\ (pre = tx " cd " \/ exists c, letter c /\ pre = 32 :: c :: tx ": & cd ")).
  { intros d NQ C. inversion C as [S E|c D S E]; subst.
    - exists (tx " cd "), d. auto.
    - exists (32 :: c :: tx ": & cd "), d. split; [reflexivity|]. split; [exact NQ|]. right. exists c. split; [|reflexivity]. destruct D; assumption. }
  inversion A as [|t2 n2 c2 _ _ T2 D2 N2 CC|t2 t3 d2 c2 _ _ T2 D2 E2 A2 P2 I2 CC]; subst.
  - apply (G (up (n2 - 1))); [|exact CC]. clear. induction (n2 - 1)%nat as [|k IH]; cbn [up]; [intros []|]. intros [X|[X|[X|X]]]; try discriminate. contradiction.
  - apply (G (backslashes d2)); [|exact CC]. specialize (Q d2 I2). intro I. unfold backslashes in I. apply in_map_iff in I as (x & X & IX). destruct ((x =? 47) || (x =? 92)); [discriminate|]. subst x. contradiction.
Qed.
End Thm.

(** ** Examples *)
Definition xdirs (d : text) : bool := existsb (eqt d) (map tx ["Program Files\"; "C:\src\"; "d:/x/"; "C:\Users\me\"; "a&b\"; "..\..\"; "a^b\"; "ab\"]%string).
Definition xenv (n : text) : option text := if iequals n (tx "HOME") then Some (tx "C:\Users\me") else if iequals n (tx "P") then Some (tx "Program") else None.
Definition xalpha (c : N) : bool := (97 <=? lowerN c) && (lowerN c <=? 122).
Definition xrun (s : string) (m : mode) := intercept_directory xenv (fun n => eqt n (tx "chdir")) xalpha 0 xdirs (fun _ => false) (tx "C:\") false (tx s) m.
Example x_quoted : xrun "  ""Program Files\""  " normal = Some (chdir (tx " cd ""Program Files\""")). Proof. vm_compute. reflexivity. Qed.
Example x_env : xrun """%p% Files\" normal = Some (chdir (tx " cd ""Program Files\""")). Proof. vm_compute. reflexivity. Qed.
Example x_drive : xrun "d:/x/" normal = Some (chdir (tx " d: & cd ""d:\x\""")). Proof. vm_compute. reflexivity. Qed.
Example x_same_drive : xrun "C:\src\" normal = Some (chdir (tx " cd ""C:\src\""")). Proof. vm_compute. reflexivity. Qed.
Example x_dots : xrun "..../" normal = Some (chdir (tx " cd ""..\..\..\""")). Proof. vm_compute. reflexivity. Qed.
Example x_ups : xrun "../.." normal = Some none /\ xrun "..\.." normal = Some (chdir (tx " cd ""..\..\""")). Proof. vm_compute. auto. Qed.
Example x_home : xrun "~" normal = Some (chdir (tx " cd ""C:\Users\me\""")). Proof. vm_compute. reflexivity. Qed.
Example x_dash : xrun " - " normal = Some prev_dir /\ xrun "Cd /D  -" only_cd_chdir = Some prev_dir /\ xrun "chdir -" only_cd_chdir = Some none /\ xrun "cd-" normal = Some none.
Proof. vm_compute. auto. Qed.
Example x_refused : xrun "C:\src" normal = Some none /\ xrun "a&b\" normal = Some none /\ xrun """a&b\""" normal = Some (chdir (tx " cd ""a&b\""")) /\ xrun "C:\src\ >x" normal = Some none.
Proof. vm_compute. auto. Qed.
Example x_hyps : (forall d, xdirs d = true -> ~ In 34 d) /\ no_nul (tx "~\x\") /\ (forall n v, xenv n = Some v -> no_nul v).
Proof.
  split; [|split].
  - intros d H I. unfold xdirs in H. apply existsb_exists in H as (x & X & E). apply eqt_iff in E. subst x. apply in_map_iff in X as (s & <- & S).
    repeat (destruct S as [<-|S]; [apply has_iff in I; vm_compute in I; discriminate|]). destruct S.
  - apply Forall_forall. intros c C. intros ->. apply has_iff in C. vm_compute in C. discriminate.
  - intros n v H. unfold xenv in H. apply Forall_forall. intros c C. intros ->. apply has_iff in C.
    destruct (iequals n (tx "HOME")); [injection H as <-; vm_compute in C; discriminate|]. destruct (iequals n (tx "P")); [injection H as <-; vm_compute in C; discriminate|discriminate].
Qed.
(** An escaped caret is lost: with directories a^b and ab, the line a^^b\ goes to ab. *)
Theorem escaped_caret_refuted : exists is_dir, is_dir (tx "a^b\") = true /\ is_dir (tx "ab\") = true /\
  intercept_directory xenv (fun _ => false) xalpha 0 is_dir (fun _ => false) (tx "C:\") false (tx "a^^b\") normal = Some (chdir (tx " cd ""ab\""")).
Proof. exists xdirs. vm_compute. auto. Qed.

Print Assumptions shortcut_exact.
Print Assumptions shortcut_defined.
Print Assumptions shortcut_quoted.
Print Assumptions escaped_caret_refuted.
