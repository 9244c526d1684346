(** Proofs about the match list: selecting and sorting. *)
From Verif Require Import Base CmpModel PathModel MlModel MlSpec MlProofs.
Local Open Scope N_scope.

Lemma sep_iff c : is_separator c = true <-> separator c.
Proof. unfold is_separator, separator. rewrite orb_true_iff, !N.eqb_eq. tauto. Qed.
Lemma sep_false c : is_separator c = false <-> ~ separator c.
Proof. rewrite <- sep_iff. destruct (is_separator c); split; congruence. Qed.

(** ** Texts without the separators at their end *)
Fixpoint dw (l : text) : text := match l with c :: r => if is_separator c then dw r else l | [] => [] end.
Lemma dw_skip z b : Forall separator z -> (b = [] \/ exists c b', b = c :: b' /\ ~ separator c) -> dw (z ++ b) = b.
Proof.
  intros F B. induction F as [|c z S F IH]; cbn [app dw].
  - destruct B as [->|(c & b' & -> & S)]; [reflexivity|]. cbn [dw]. apply sep_false in S. rewrite S. reflexivity.
  - apply sep_iff in S. rewrite S. exact IH.
Qed.
Lemma body_dw m b : body m b -> b = rev (dw (rev m)).
Proof.
  intros (z & -> & F & B). rewrite rev_app_distr, dw_skip.
  - symmetry. apply rev_involutive.
  - apply Forall_rev. exact F.
  - destruct B as [->|(b' & c & -> & S)]; [left; reflexivity|right]. exists c, (rev b'). rewrite rev_app_distr. auto.
Qed.
Lemma strip_down_spec p : forall len, (len <= length p)%nat ->
  let n := strip_down p 0 len in
  (n <= len)%nat /\ Forall separator (firstn (len - n) (skipn n p)) /\ (n = 0%nat \/ ~ separator (at_ p (n - 1))).
Proof.
  induction len as [|k IH]; intro L; cbv zeta; cbn [strip_down].
  - split; [lia|]. split; [constructor|left; reflexivity].
  - replace (Nat.ltb 0 (S k)) with true by reflexivity. cbn [andb]. destruct (sep_at p k) eqn:E.
    + destruct (IH ltac:(lia)) as (A & B & C). split; [lia|]. split; [|exact C].
      set (n := strip_down p 0 k) in *. replace (S k - n)%nat with (S (k - n)) by lia.
      assert (X : firstn (S (k - n)) (skipn n p) = firstn (k - n) (skipn n p) ++ [at_ p k]).
      { assert (LN : (k - n < length (skipn n p))%nat) by (rewrite skipn_length; lia).
        revert LN. unfold at_. replace (nth k p 0) with (nth (k - n) (skipn n p) 0).
        - generalize (skipn n p). generalize (k - n)%nat. clear. induction n as [|n IH]; intros [|x l] H; cbn [length] in H; [lia|reflexivity|lia|].
          cbn [firstn app nth]. f_equal. apply IH. lia.
        - rewrite <- (firstn_skipn n p) at 2. rewrite app_nth2; rewrite firstn_length; [|lia]. f_equal. lia. }
      rewrite X. apply Forall_app. split; [exact B|]. constructor; [apply sep_iff; exact E|constructor].
    + split; [lia|]. rewrite Nat.sub_diag. split; [constructor|]. right. replace (S k - 1)%nat with k by lia. apply sep_false. exact E.
Qed.
Lemma last_of_firstn n (p : text) : (0 < n <= length p)%nat -> firstn n p = firstn (n - 1) p ++ [at_ p (n - 1)].
Proof.
  revert p. unfold at_. induction n as [|n IH]; intros p L; [lia|]. destruct p as [|x p]; cbn [length] in L; [lia|].
  destruct n as [|n]; [reflexivity|]. replace (S (S n) - 1)%nat with (S n) by lia. cbn [firstn app nth]. f_equal.
  specialize (IH p ltac:(lia)). replace (S n - 1)%nat with n in IH by lia. exact IH.
Qed.
Lemma strip_body m : body m (strip_seps m).
Proof.
  unfold strip_seps. pose proof (strip_down_spec m (length m) (le_n _)) as H. cbv zeta in H. set (n := strip_down m 0 (length m)) in *.
  destruct H as (A & B & C). exists (skipn n m). split; [symmetry; apply firstn_skipn|]. split.
  - rewrite firstn_all2 in B; [exact B|]. rewrite skipn_length. lia.
  - destruct (Nat.eq_dec n 0) as [E|E]; [left; rewrite E; reflexivity|right]. destruct C as [C|C]; [congruence|].
    exists (firstn (n - 1) m), (at_ m (n - 1)). split; [apply last_of_firstn; lia|exact C].
Qed.
Lemma body_iff m b : body m b <-> b = strip_seps m.
Proof.
  split; [|intros ->; apply strip_body]. intro H. apply body_dw in H. rewrite H. symmetry. apply body_dw. apply strip_body.
Qed.
Lemma nonsep_down_spec p : forall n, (n <= length p)%nat ->
  let k := nonsep_down p n in
  (k <= n)%nat /\ (forall i, (k <= i < n)%nat -> ~ separator (at_ p i)) /\ (k = 0%nat \/ separator (at_ p (k - 1))).
Proof.
  induction n as [|j IH]; intro L; cbv zeta; cbn [nonsep_down].
  - split; [lia|]. split; [intros; lia|left; reflexivity].
  - destruct (sep_at p j) eqn:E; cbn [negb].
    + split; [lia|]. split; [intros; lia|]. right. replace (S j - 1)%nat with j by lia. apply sep_iff. exact E.
    + destruct (IH ltac:(lia)) as (A & B & C). split; [lia|]. split; [|exact C]. intros i I.
      destruct (Nat.eq_dec i j) as [->|]; [apply sep_false; exact E|]. apply B. lia.
Qed.
Lemma at_app_l (a b : text) i : (i < length a)%nat -> at_ (a ++ b) i = at_ a i.
Proof. intro L. unfold at_. apply app_nth1. exact L. Qed.
Lemma at_app_r (a b : text) i : (length a <= i)%nat -> at_ (a ++ b) i = at_ b (i - length a).
Proof. intro L. unfold at_. apply app_nth2. exact L. Qed.
Lemma at_in (a : text) i : (i < length a)%nat -> In (at_ a i) a.
Proof. intro L. unfold at_. apply nth_In. exact L. Qed.

Lemma sorted_unique : forall F G : list info, StronglySorted (fun a b => ordinal a < ordinal b) F -> StronglySorted (fun a b => ordinal a < ordinal b) G -> Permutation F G -> F = G.
Proof.
  induction F as [|x F IH]; intros G SF SG P; [apply Permutation_nil in P; auto|]. destruct G as [|y G]; [symmetry in P; apply Permutation_nil in P; discriminate|].
  inversion SF as [|a b SF1 SF2]; subst. inversion SG as [|a b SG1 SG2]; subst.
  assert (E : x = y).
  { assert (IX : In x (y :: G)) by (eapply Permutation_in; [exact P|left; reflexivity]). assert (IY : In y (x :: F)) by (eapply Permutation_in; [symmetry; exact P|left; reflexivity]).
    destruct IX as [IX|IX]; [congruence|]. destruct IY as [IY|IY]; [congruence|].
    pose proof (proj1 (Forall_forall _ _) SF2 y IY) as A. pose proof (proj1 (Forall_forall _ _) SG2 x IX) as B. cbn beta in A, B. lia. }
  subst y. f_equal. apply IH; [assumption|assumption|]. exact (Permutation_cons_inv P).
Qed.

Section Pipe.
Variable walpha : N -> bool.
Variable begins : text -> text -> bool.
Variable wild : text -> text -> bool -> bool -> bool.

Lemma hidden_iff m : unix_hidden walpha m = true <-> dotted (past_drive walpha m).
Proof.
  unfold unix_hidden. set (d := past_drive walpha m). clearbody d. cbv zeta. rewrite N.eqb_eq.
  pose proof (strip_body d) as SB. unfold strip_seps in SB. pose proof (strip_down_spec d (length d) (le_n _)) as SD. cbv zeta in SD.
  set (n := strip_down d 0 (length d)) in *. clearbody n. destruct SD as (L & FS & NL).
  pose proof (nonsep_down_spec d n L) as ND. cbv zeta in ND. set (k := nonsep_down d n) in *. clearbody k. destruct ND as (K & NS & KS).
  rewrite firstn_all2 in FS by (rewrite skipn_length; lia).
  split.
  - intro E. assert (KN : (k < n)%nat).
    { destruct (Nat.eq_dec k n) as [->|]; [|lia]. exfalso. destruct (Nat.eq_dec n 0) as [->|N0].
      - cbn [skipn] in FS. destruct d as [|c d]; [discriminate|]. unfold at_ in E. cbn [nth] in E. subst c. pose proof (Forall_inv FS) as [X|X]; discriminate.
      - destruct NL as [NL|NL]; [congruence|]. destruct KS as [KS|KS]; [congruence|]. exact (NL KS). }
    exists (firstn k d), (firstn (n - S k) (skipn (S k) d)), (skipn n d). split; [|split; [|split]].
    + assert (X : skipn k d = 46 :: skipn (S k) d).
      { unfold at_ in E. assert (LK : (k < length d)%nat) by lia. clear - E LK. revert d E LK. induction k as [|k IH]; intros [|c d] E LK; cbn [length] in LK; try lia.
        - cbn [nth] in E. subst c. reflexivity.
        - cbn [skipn]. cbn [nth] in E. apply IH; [exact E|lia]. }
      rewrite <- (firstn_skipn k d) at 1. rewrite X. f_equal. f_equal.
      rewrite <- (firstn_skipn (n - S k) (skipn (S k) d)) at 1. f_equal. clear - KN. replace n with (S k + (n - S k))%nat at 2 by lia.
      generalize (S k) as a, (n - S k)%nat as b. intros a b. revert d. induction a as [|a IH]; intro d; [reflexivity|]. destruct d as [|c d]; [destruct b; reflexivity|]. cbn [skipn Nat.add]. apply IH.
    + apply Forall_forall. intros c I. apply In_nth with (d := 0) in I as (i & LI & <-). rewrite firstn_length, skipn_length in LI.
      assert (X : nth i (firstn (n - S k) (skipn (S k) d)) 0 = at_ d (S k + i)).
      { unfold at_. rewrite <- (firstn_skipn (n - S k) (skipn (S k) d)) at 2 || idtac. 
        transitivity (nth i (skipn (S k) d) 0).
        - rewrite <- (firstn_skipn (n - S k) (skipn (S k) d)) at 2. rewrite app_nth1; [reflexivity|]. rewrite firstn_length, skipn_length. lia.
        - rewrite <- (firstn_skipn (S k) d) at 2. rewrite app_nth2; rewrite firstn_length; [|lia]. f_equal. lia. }
      rewrite X. apply NS. lia.
    + exact FS.
    + destruct KS as [->|KS]; [left; reflexivity|]. destruct (Nat.eq_dec k 0) as [->|K0]; [left; reflexivity|right].
      exists (firstn (k - 1) d), (at_ d (k - 1)). split; [apply last_of_firstn; lia|exact KS].
  - intros (a & nm & z & E & FN & FZ & AS).
    assert (B : body d (a ++ 46 :: nm)).
    { exists z. split; [rewrite <- app_assoc; exact E|]. split; [exact FZ|]. right. destruct (@exists_last _ (46 :: nm)) as (b' & c & X); [discriminate|].
      rewrite X, app_assoc. exists (a ++ b'), c. split; [reflexivity|]. assert (I : In c (46 :: nm)) by (rewrite X; apply in_app_iff; right; left; reflexivity).
      destruct I as [<-|I]; [intros [Y|Y]; discriminate|]. exact (proj1 (Forall_forall _ _) FN c I). }
    apply body_dw in B. apply body_dw in SB. assert (FE : firstn n d = a ++ 46 :: nm) by congruence.
    assert (LN : n = (length a + S (length nm))%nat).
    { apply (f_equal (@length N)) in FE. rewrite firstn_length, app_length in FE. cbn [length] in FE. lia. }
    assert (KA : k = length a).
    { assert (LE : (k <= length a)%nat).
      { destruct (Nat.le_gt_cases k (length a)) as [|G]; [assumption|]. exfalso. destruct KS as [KS|KS]; [lia|].
        assert (X : at_ d (k - 1) = at_ (46 :: nm) (k - 1 - length a)).
        { rewrite E, at_app_r by lia. change (46 :: nm ++ z) with ((46 :: nm) ++ z). apply at_app_l. cbn [length]. lia. }
        rewrite X in KS. pose proof (at_in (46 :: nm) (k - 1 - length a) ltac:(cbn [length]; lia)) as I. destruct I as [I|I].
        - rewrite <- I in KS. destruct KS; discriminate.
        - exact (proj1 (Forall_forall _ _) FN _ I KS). }
      destruct (Nat.eq_dec k (length a)) as [|NE]; [assumption|]. exfalso. destruct AS as [->|(b & c & -> & S)]; [cbn [length] in *; lia|].
      rewrite app_length in *. cbn [length] in *. apply (NS (length b) ltac:(lia)). rewrite E, <- app_assoc, at_app_r by lia. rewrite Nat.sub_diag. exact S. }
    rewrite KA, E, at_app_r by lia. rewrite Nat.sub_diag. reflexivity.
Qed.

Lemma included_iff c t : included c t = true <-> allowed c t.
Proof.
  unfold included, allowed. destruct (is_system t); [split; [intro H; split; [auto|discriminate]|intros [H _]; auto]|].
  destruct (is_hidden t); [rewrite andb_true_iff; split; [intro H; split; [discriminate|auto]|intros [_ H]; auto]|].
  split; [intros _; split; discriminate|reflexivity].
Qed.
Lemma not_hidden_iff c needle e :
  (include_hidden walpha c needle || negb (unix_hidden walpha (match_ e))) && included c (type_ e) = true <-> not_hidden walpha c needle (item_of e).
Proof.
  unfold not_hidden, include_hidden, text_of, type_of. cbn [item_of fst snd]. rewrite andb_true_iff, included_iff, !orb_true_iff, N.eqb_eq, negb_true_iff.
  assert (X : unix_hidden walpha (match_ e) = false <-> ~ dotted (past_drive walpha (match_ e))).
  { rewrite <- hidden_iff. destruct (unix_hidden walpha (match_ e)); split; congruence. }
  rewrite X. tauto.
Qed.
Lemma prefix_iff c needle e : prefix_pick walpha begins c needle e = true <-> by_prefix walpha begins c needle (item_of e).
Proof. unfold prefix_pick, by_prefix. rewrite <- andb_assoc, andb_true_iff, not_hidden_iff. reflexivity. Qed.
Lemma pattern_iff c pat e : pattern_pick walpha wild c pat e = true <-> by_pattern walpha wild c pat (item_of e).
Proof.
  unfold pattern_pick, by_pattern. rewrite andb_true_iff, not_hidden_iff. unfold text_of, type_of. cbn [item_of fst snd]. split; intros [A B]; (split; [exact A|]).
  - exists (strip_seps (match_ e)). split; [apply strip_body|exact B].
  - destruct B as (b & X & B). apply body_iff in X. subst b. exact B.
Qed.

Lemma tame_iff p : tame p = true <-> ~ In 63 p /\ exists a n, p = a ++ repeat 42 n /\ ~ In 42 a.
Proof.
  induction p as [|c r IH]; cbn [tame].
  - split; [intros _; split; [intros []|]; exists [], 0%nat; split; [reflexivity|intros []]|reflexivity].
  - rewrite andb_true_iff, negb_true_iff, orb_false_iff, IH. split.
    + intros [[C1 C2] [Q (a & n & -> & A)]]. apply N.eqb_neq in C1. split; [intros [X|X]; [congruence|exact (Q X)]|].
      destruct (N.eqb_spec c 42) as [->|C].
      * cbn [andb] in C2. apply negb_false_iff in C2. destruct a as [|x a].
        -- exists [], (S n). split; [reflexivity|intros []].
        -- cbn [app] in C2. apply N.eqb_eq in C2. subst x. exfalso. apply A. left. reflexivity.
      * exists (c :: a), n. split; [reflexivity|]. intros [X|X]; [congruence|exact (A X)].
    + intros [Q (a & n & E & A)]. split.
      * split; [apply N.eqb_neq; intro X; apply Q; left; exact X|]. destruct (N.eqb_spec c 42) as [->|C]; [|reflexivity]. cbn [andb]. apply negb_false_iff.
        destruct a as [|x a]; [|cbn [app] in E; injection E as E1 E2; subst x; exfalso; apply A; left; reflexivity].
        destruct n as [|n]; [discriminate|]. cbn [app repeat] in E. injection E as ->. destruct n; reflexivity.
      * split; [intro X; apply Q; right; exact X|]. destruct a as [|x a].
        -- destruct n as [|n]; [discriminate|]. cbn [app repeat] in E. injection E as _ ->. exists [], n. split; [reflexivity|intros []].
        -- cbn [app] in E. injection E as _ ->. exists a, n. split; [reflexivity|]. intro X. apply A. right. exact X.
Qed.
Lemma can_try_iff c p : can_try c p = true <-> second_try c p.
Proof.
  unfold can_try, second_try. destruct p as [|x r]; [split; [discriminate|intros (_ & X & _); congruence]|].
  cbn [hd]. rewrite !andb_true_iff, negb_true_iff, orb_false_iff, !N.eqb_neq, orb_true_iff, tame_iff. split.
  - intros [[[A B] C] D]. split; [exact C|]. split; [discriminate|]. auto.
  - intros (C & _ & A & B & D). auto.
Qed.
Lemma after_no b i n : Forall (fun c => ~ separator c) b -> after_sep b i n = n.
Proof.
  intro F. revert i n. induction F as [|c b S F IH]; intros i n; cbn [after_sep]; [reflexivity|]. apply sep_false in S. rewrite S. apply IH.
Qed.
Lemma after_last a c b i n : separator c -> Forall (fun c => ~ separator c) b -> after_sep (a ++ c :: b) i n = (i + length a + 1)%nat.
Proof.
  intros S F. revert i n. induction a as [|x a IH]; intros i n; cbn [app after_sep length].
  - apply sep_iff in S. rewrite S, after_no by exact F. lia.
  - rewrite IH. lia.
Qed.
Lemma after_split p : exists a b, p = a ++ b /\ Forall (fun c => ~ separator c) b /\ (a = [] \/ exists a' c, a = a' ++ [c] /\ separator c).
Proof.
  induction p as [|c p (a & b & -> & F & A)]; [exists [], []; auto|]. destruct A as [->|(a' & x & -> & S)].
  - cbn [app]. destruct (is_separator c) eqn:E.
    + exists [c], b. split; [reflexivity|]. split; [exact F|]. right. exists [], c. split; [reflexivity|apply sep_iff; exact E].
    + exists [], (c :: b). split; [reflexivity|]. split; [constructor; [apply sep_false; exact E|exact F]|left; reflexivity].
  - exists (c :: a' ++ [x]), b. split; [reflexivity|]. split; [exact F|]. right. exists (c :: a'), x. auto.
Qed.
Lemma split_sub a b app : Forall (fun c => ~ separator c) b -> (a = [] \/ exists a' c, a = a' ++ [c] /\ separator c) ->
  sub_pattern (a ++ b) app = a ++ 42 :: b ++ app.
Proof.
  intros F A. unfold sub_pattern. cbv zeta. assert (K : after_sep (a ++ b) 0 0 = length a).
  { destruct A as [->|(a' & c & -> & S)]; [apply after_no; exact F|]. rewrite <- app_assoc. cbn [List.app]. rewrite after_last by assumption. rewrite app_length. cbn [length]. lia. }
  rewrite K, firstn_app, firstn_all, Nat.sub_diag, skipn_app, skipn_all, Nat.sub_diag. cbn [firstn skipn List.app]. rewrite app_nil_r. reflexivity.
Qed.
Lemma starred_iff needle app p : starred needle app p <-> p = sub_pattern needle app.
Proof.
  split.
  - intros (a & b & -> & F & A & ->). symmetry. apply split_sub; assumption.
  - intros ->. destruct (after_split needle) as (a & b & -> & F & A). exists a, b. split; [reflexivity|]. split; [exact F|]. split; [exact A|]. apply split_sub; assumption.
Qed.
Lemma substring_iff c needle app e :
  pattern_pick walpha wild c (sub_pattern needle app) e = true <-> substring_of walpha wild c needle app (item_of e).
Proof.
  rewrite pattern_iff. unfold substring_of. split.
  - intro H. exists (sub_pattern needle app). split; [apply starred_iff; reflexivity|exact H].
  - intros (p & S & H). apply starred_iff in S. subst p. exact H.
Qed.

(** ** coalesce *)
Lemma set_nth_mid {A} (a b : list A) x y : set_nth (length a) x (a ++ y :: b) = a ++ x :: b.
Proof. induction a as [|z a IH]; cbn [length app set_nth]; [reflexivity|]. f_equal. exact IH. Qed.
Lemma nth_error_mid {A} (a b : list A) y : nth_error (a ++ y :: b) (length a) = Some y.
Proof. rewrite nth_error_app2 by lia. rewrite Nat.sub_diag. reflexivity. Qed.
Lemma swap_mid {A} (f m r : list A) x e : swap (length (f ++ x :: m)) (length f) (f ++ x :: m ++ e :: r) = f ++ e :: m ++ x :: r.
Proof.
  unfold swap. rewrite nth_error_mid. 
  assert (E : nth_error (f ++ x :: m ++ e :: r) (length (f ++ x :: m)) = Some e).
  { change (f ++ x :: m ++ e :: r) with (f ++ (x :: m) ++ e :: r). rewrite app_assoc. apply nth_error_mid. }
  rewrite E, set_nth_mid. transitivity (set_nth (length (f ++ e :: m)) x ((f ++ e :: m) ++ e :: r)).
  - rewrite !app_length, <- app_assoc. reflexivity.
  - rewrite set_nth_mid, <- app_assoc. reflexivity.
Qed.
Lemma gather_ok : forall rest front mid hint any all,
  (length front + length (filter select rest) <= hint)%nat -> Forall (fun e => select e = false) mid ->
  exists mid' any' all',
    gather (length rest) (length (front ++ mid)) (length front) hint (front ++ mid ++ rest) any all
      = (front ++ filter select rest ++ mid', (length front + length (filter select rest))%nat, any', all') /\
    Permutation (mid ++ filter (fun e => negb (select e)) rest) mid'.
Proof.
  induction rest as [|e rest IH]; intros front mid hint any all H M; cbn [length gather filter].
  - exists mid, any, all. cbn [app]. rewrite Nat.add_0_r, !app_nil_r. split; [reflexivity|apply Permutation_refl].
  - destruct (Nat.ltb_spec (length front) hint) as [LT|GE].
    + assert (E : nth_error (front ++ mid ++ e :: rest) (length (front ++ mid)) = Some e) by (rewrite app_assoc; apply nth_error_mid).
      rewrite E. destruct (select e) eqn:SE; cbn [negb].
      * cbn [filter length] in H. rewrite SE in H. cbn [length] in H.
        destruct mid as [|x mid].
        -- rewrite app_nil_r. rewrite Nat.eqb_refl.
           destruct (IH (front ++ [e]) [] hint (any || is_pathish (type_ e)) (all && is_pathish (type_ e))) as (mid' & any' & all' & G & P).
           { rewrite app_length. cbn [length]. lia. } { constructor. }
           rewrite app_nil_r in G. rewrite app_length in G. cbn [length] in G. replace (length front + 1)%nat with (S (length front)) in G by lia.
           cbn [app] in G |- *. rewrite <- !app_assoc in G. cbn [app] in G. rewrite G. exists mid', any', all'. split; [|exact P]. cbn [app length]. f_equal. f_equal. f_equal. lia.
        -- replace (Nat.eqb (length (front ++ x :: mid)) (length front)) with false by (symmetry; apply Nat.eqb_neq; rewrite app_length; cbn [length]; lia).
           cbn [app]. rewrite swap_mid.
           destruct (IH (front ++ [e]) (mid ++ [x]) hint (any || is_pathish (type_ e)) (all && is_pathish (type_ e))) as (mid' & any' & all' & G & P).
           { rewrite app_length. cbn [length]. lia. } { apply Forall_app. split; [exact (Forall_inv_tail M)|]. constructor; [exact (Forall_inv M)|constructor]. }
           replace (length ((front ++ [e]) ++ mid ++ [x])) with (S (length (front ++ x :: mid))) in G by (rewrite !app_length; cbn [length]; lia).
           replace (length (front ++ [e])) with (S (length front)) in G by (rewrite app_length; cbn [length]; lia).
           rewrite <- !app_assoc in G. cbn [app] in G. rewrite G. exists mid', any', all'. split; [cbn [app length]; f_equal; f_equal; f_equal; lia|].
           rewrite <- P, <- app_assoc. apply Permutation_middle.
      * cbn [filter] in H. rewrite SE in H.
        destruct (IH front (mid ++ [e]) hint any all) as (mid' & any' & all' & G & P).
        { exact H. } { apply Forall_app. split; [exact M|]. constructor; [exact SE|constructor]. }
        replace (length (front ++ mid ++ [e])) with (S (length (front ++ mid))) in G by (rewrite !app_length; cbn [length]; lia).
        rewrite <- !app_assoc in G. cbn [app] in G. rewrite G. exists mid', any', all'. split; [reflexivity|]. rewrite <- P, <- app_assoc. reflexivity.
    + cbn [filter] in H. destruct (select e) eqn:SE; cbn [length] in H; [lia|]. cbn [negb].
      destruct (filter select rest) eqn:F; [|cbn [length] in H; lia]. cbn [length]. rewrite Nat.add_0_r. exists (mid ++ e :: rest), any, all. split; [reflexivity|].
      apply Permutation_app_head. constructor. clear - F. induction rest as [|y rest IH]; [constructor|]. cbn [filter] in *. destruct (select y); [discriminate|]. cbn [negb]. constructor. apply IH. exact F.
Qed.
Lemma filter_length_le' {A} (P : A -> bool) l : (length (filter P l) <= length l)%nat.
Proof. induction l as [|x l IH]; cbn [filter length]; [lia|]. destruct (P x); cbn [length]; lia. Qed.
Lemma coalesce_ok s hint restrict : (length (filter select (infos s)) <= hint)%nat ->
  exists rest, infos (coalesce s hint restrict) = filter select (infos s) ++ rest /\
    (if restrict then rest = [] else Permutation (filter (fun e => negb (select e)) (infos s)) rest) /\
    count (coalesce s hint restrict) = short (N.of_nat (length (filter select (infos s)))) /\ nosort (coalesce s hint restrict) = nosort s.
Proof.
  intro H. destruct (gather_ok (infos s) [] [] hint false true) as (mid' & any' & all' & G & P); [exact H|constructor|].
  unfold coalesce. cbn [app length] in G. rewrite G. cbn [app] in P. destruct restrict; cbn [infos count nosort].
  - exists []. rewrite firstn_app, Nat.sub_diag. cbn [firstn Nat.add]. rewrite firstn_all. auto.
  - exists mid'. auto.
Qed.

(** ** The list refines what the user may think of it *)
Definition strip (e : info) : info := mki (match_ e) (type_ e) (ordinal e) (extra e) false.
Definition blind (pick : info -> bool) : Prop := forall e, pick (strip e) = pick e.
Definition before (a b : info) : Prop := ordinal a < ordinal b.
Definition refines (s : state) (w : list item * list item) : Prop :=
  exists F G, map item_of F = fst w /\ map item_of G = snd w /\ StronglySorted before F /\ subsequence G F /\
    Permutation (map strip (infos s)) F /\ Permutation (map strip (shown s)) G /\ N.of_nat (length (infos s)) < 65536.

Lemma filter_mark pick l : blind pick -> map strip (filter select (mark pick l)) = filter pick (map strip l).
Proof.
  intro B. induction l as [|e l IH]; [reflexivity|]. cbn [mark map filter select]. rewrite (B e). destruct (pick e); cbn [map]; [f_equal|]; exact IH.
Qed.
Lemma mark_mark p q l : blind p -> mark p (mark q l) = mark p l.
Proof.
  intro B. unfold mark. rewrite map_map. apply map_ext. intro e. cbn [match_ type_ ordinal extra]. f_equal.
  rewrite <- (B e), <- (B (mki (match_ e) (type_ e) (ordinal e) (extra e) (q e))). reflexivity.
Qed.
Lemma strip_mark p l : map strip (mark p l) = map strip l.
Proof. unfold mark. rewrite map_map. apply map_ext. reflexivity. Qed.
Lemma perm_filter {A} (P : A -> bool) l l' : Permutation l l' -> Permutation (filter P l) (filter P l').
Proof.
  induction 1; cbn [filter]; [constructor| |destruct (P x), (P y); try constructor; apply Permutation_refl|etransitivity; eassumption].
  destruct (P x); [constructor|]; assumption.
Qed.
Lemma perm_split {A} (P : A -> bool) l : Permutation (filter P l ++ filter (fun x => negb (P x)) l) l.
Proof.
  induction l as [|x l IH]; [constructor|]. cbn [filter]. destruct (P x); cbn [negb app]; [constructor; exact IH|].
  etransitivity; [symmetry; apply Permutation_middle|]. constructor. exact IH.
Qed.
Lemma sub_filter {A} (P : A -> bool) l : subsequence (filter P l) l.
Proof. induction l as [|x l IH]; cbn [filter]; [constructor|]. destruct (P x); constructor; exact IH. Qed.
Lemma sub_forall {A} (P : A -> Prop) a b : subsequence a b -> Forall P b -> Forall P a.
Proof. induction 1; intro F; [constructor|apply IHsubsequence; exact (Forall_inv_tail F)|]. constructor; [exact (Forall_inv F)|apply IHsubsequence; exact (Forall_inv_tail F)]. Qed.
Lemma sub_sorted {A} (R : A -> A -> Prop) a b : subsequence a b -> StronglySorted R b -> StronglySorted R a.
Proof.
  induction 1; intro F; [constructor| |]; inversion F as [|y l F1 F2]; subst; [auto|]. constructor; [auto|]. eapply sub_forall; eassumption.
Qed.
Lemma chosen_filter (P : item -> Prop) pick l : (forall e, pick e = true <-> P (item_of e)) -> chosen P (map item_of l) (map item_of (filter pick l)).
Proof.
  intro H. induction l as [|e l IH]; cbn [map filter]; [constructor|]. destruct (pick e) eqn:E; cbn [map].
  - apply C_take; [apply H; exact E|exact IH].
  - apply C_skip; [rewrite <- H; congruence|exact IH].
Qed.

(** The common part: [pick] decides what is shown. *)
Lemma show_ok s all V pick hint restrict :
  refines s (all, V) -> blind pick -> (length (filter select (mark pick (infos s))) <= hint)%nat ->
  exists F, map item_of F = all /\ StronglySorted before F /\ Permutation (map strip (infos s)) F /\
    refines (coalesce (with_infos s (mark pick (infos s))) hint restrict)
            (if restrict then map item_of (filter pick F) else all, map item_of (filter pick F)).
Proof.
  intros (F & G & E1 & _ & SF & _ & PF & _ & L) B H. cbn [fst] in E1. subst all. exists F. split; [reflexivity|]. split; [exact SF|]. split; [exact PF|].
  destruct (coalesce_ok (with_infos s (mark pick (infos s))) hint restrict H) as (rest & I & R & C & _). cbn [with_infos infos] in I, R, C.
  assert (LF : (length (filter select (mark pick (infos s))) <= length (infos s))%nat).
  { rewrite <- (map_length (fun e => mki (match_ e) (type_ e) (ordinal e) (extra e) (pick e)) (infos s)). apply filter_length_le'. }
  assert (CT : N.to_nat (count (coalesce (with_infos s (mark pick (infos s))) hint restrict)) = length (filter select (mark pick (infos s)))).
  { rewrite C. unfold short. rewrite N.mod_small by lia. apply Nat2N.id. }
  assert (SH : shown (coalesce (with_infos s (mark pick (infos s))) hint restrict) = filter select (mark pick (infos s))).
  { unfold shown. rewrite CT, I, firstn_app, Nat.sub_diag, firstn_all. cbn [firstn]. apply app_nil_r. }
  assert (PG : Permutation (map strip (filter select (mark pick (infos s)))) (filter pick F)) by (rewrite filter_mark by exact B; apply perm_filter; exact PF).
  exists (if restrict then filter pick F else F), (filter pick F). cbn [fst snd]. rewrite SH, I.
  destruct restrict.
  - subst rest. rewrite app_nil_r. split; [reflexivity|]. split; [reflexivity|]. split; [eapply sub_sorted; [apply sub_filter|exact SF]|].
    split; [apply sub_refl|]. split; [exact PG|]. split; [exact PG|]. lia.
  - split; [reflexivity|]. split; [reflexivity|]. split; [exact SF|]. split; [apply sub_filter|]. split; [|split; [exact PG|]].
    + rewrite map_app. etransitivity; [apply Permutation_app_head; apply Permutation_map; symmetry; exact R|]. rewrite <- map_app.
      etransitivity; [apply Permutation_map; apply (perm_split select (mark pick (infos s)))|]. rewrite strip_mark. exact PF.
    + rewrite app_length. apply Permutation_length in R. rewrite <- R. rewrite <- app_length.
      rewrite (Permutation_length (perm_split select (mark pick (infos s)))). unfold mark. rewrite map_length. exact L.
Qed.
Lemma tries_ok P Q (p1 p2 : info -> bool) allowed (A : Prop) F :
  (forall e, p1 e = true <-> P (item_of e)) -> (forall e, p2 e = true <-> Q (item_of e)) -> (allowed = true <-> A) ->
  tries P Q A (map item_of F) (map item_of (filter (if negb (existsb p1 F) && allowed then p2 else p1) F)).
Proof.
  intros HP HQ HA. unfold tries. destruct (existsb p1 F) eqn:E; cbn [negb andb].
  - left. split; [apply chosen_filter; exact HP|]. left. apply existsb_exists in E as (e & I & E). intro X.
    assert (Y : In (item_of e) (map item_of (filter p1 F))) by (apply in_map; apply filter_In; auto). rewrite X in Y. exact Y.
  - destruct allowed.
    + right. assert (E0 : filter p1 F = []).
      { clear - E. induction F as [|x F IH]; [reflexivity|]. cbn [existsb filter] in *. apply orb_false_iff in E as [E1 E2]. rewrite E1. apply IH. exact E2. }
      split; [change (@nil item) with (map item_of []); rewrite <- E0; apply chosen_filter; exact HP|]. split; [apply HA; reflexivity|]. apply chosen_filter. exact HQ.
    + left. split; [apply chosen_filter; exact HP|]. right. rewrite <- HA. discriminate.
Qed.
Lemma selected_mark p1 p2 allowed l F : blind p1 -> blind p2 -> Permutation (map strip l) F ->
  selected p1 p2 allowed l = mark (if negb (existsb p1 F) && allowed then p2 else p1) l.
Proof.
  intros B1 B2 P. unfold selected. cbv zeta.
  assert (E : existsb select (mark p1 l) = existsb p1 F).
  { assert (E1 : existsb select (mark p1 l) = existsb p1 (map strip l)).
    { clear - B1. induction l as [|e l IH]; [reflexivity|]. cbn [mark map existsb select]. rewrite (B1 e). f_equal. exact IH. }
    rewrite E1. apply eq_true_iff_eq. rewrite !existsb_exists. split; intros (x & I & X); exists x; (split; [|exact X]).
    - eapply Permutation_in; [exact P|exact I].
    - eapply Permutation_in; [symmetry; exact P|exact I]. }
  rewrite E. destruct (negb (existsb p1 F) && allowed); [apply mark_mark; exact B2|reflexivity].
Qed.
Lemma blind_prefix c n : blind (prefix_pick walpha begins c n). Proof. intro e. reflexivity. Qed.
Lemma blind_pattern c n : blind (pattern_pick walpha wild c n). Proof. intro e. reflexivity. Qed.
Lemma mark_length p l : length (mark p l) = length l. Proof. apply map_length. Qed.

Lemma refines_try s all V p1 p2 allowed (P Q : item -> Prop) (A : Prop) restrict :
  refines s (all, V) -> blind p1 -> blind p2 -> (forall e, p1 e = true <-> P (item_of e)) -> (forall e, p2 e = true <-> Q (item_of e)) -> (allowed = true <-> A) ->
  exists V', tries P Q A all V' /\
    refines (coalesce (with_infos s (selected p1 p2 allowed (infos s))) (length (infos s)) restrict) (if restrict then V' else all, V').
Proof.
  intros R B1 B2 HP HQ HA. destruct R as (F & G & E1 & E2 & R). pose proof R as (_ & _ & PF & _ & _).
  rewrite (selected_mark p1 p2 allowed (infos s) F B1 B2 PF). set (pk := if negb (existsb p1 F) && allowed then p2 else p1).
  assert (BK : blind pk) by (unfold pk; destruct (negb (existsb p1 F) && allowed); assumption).
  destruct (show_ok s all V pk (length (infos s)) restrict) as (F' & E' & SF' & PF' & R').
  - exists F, G. auto.
  - exact BK.
  - rewrite <- (mark_length pk (infos s)). apply filter_length_le'.
  - assert (FF : F' = F).
    { assert (PP : Permutation F F') by (rewrite <- PF; exact PF'). destruct R as (SF & _). apply sorted_unique; [exact SF'|exact SF|symmetry; exact PP]. }
    subst F'. exists (map item_of (filter pk F)). split; [|exact R'].
    cbn [fst] in E1. rewrite <- E1. apply tries_ok; assumption.
Qed.
End Pipe.
